(** Vocabulary for C17 and C44. *)
From Verif Require Import IR_Model Infer_Model.

(** The declared range of a count, for the opset in force: of a versioned
    declaration the entry with the largest version that is not newer than the
    opset applies (the last one if there are several); none: no restriction. *)
Definition governs {A} (opset : N) (l : list (N * A)) (v : N) (a : A) : Prop :=
  exists p s, l = p ++ (v, a) :: s /\ (v <= opset)%N /\
    (forall w b, In (w, b) p -> (w <= opset)%N -> (w <= v)%N) /\
    (forall w b, In (w, b) s -> (w <= opset)%N -> (w < v)%N).

Inductive in_range_in (opset count : N) : input_spec -> Prop :=
| rin_exact : in_range_in opset count (IExact count)
| rin_atleast m : (m <= count)%N -> in_range_in opset count (IAtLeast m)
| rin_range lo hi : (lo <= count <= hi)%N -> in_range_in opset count (IRange lo hi)
| rin_none l : (forall v a, In (v, a) l -> (opset < v)%N) -> in_range_in opset count (IOpset l)
| rin_opset l v a : governs opset l v a -> in_range_in opset count a -> in_range_in opset count (IOpset l).

Inductive in_range_out (opset count : N) : output_spec -> Prop :=
| rout_exact : in_range_out opset count (OExact count)
| rout_range lo hi : (lo <= count <= hi)%N -> in_range_out opset count (ORange lo hi)
| rout_none l : (forall v a, In (v, a) l -> (opset < v)%N) -> in_range_out opset count (OOpset l)
| rout_opset l v a : governs opset l v a -> in_range_out opset count a -> in_range_out opset count (OOpset l).

(** A processor only assigns output types, and assigning them again changes
    nothing. *)
Definition assigns_output_types (infer : rnode -> list pkey -> option rnode) : Prop :=
  forall n pf n', infer n pf = Some n' ->
    ntype n' = ntype n /\ nname n' = nname n /\ ninputs n' = ninputs n /\ nattrs n' = nattrs n /\
    map aname (noutputs n') = map aname (noutputs n) /\
    infer n' pf = Some n'.

(** The graph is settled: every processor, given the preferences of the
    consumers, reproduces the node; every input carries the type of the output
    it names (refined by what was known about the input); every preference a
    node states has been taken up. *)
Definition settled (infer : rnode -> list pkey -> option rnode) (wants : rnode -> string -> list pref)
    (nodes : list rnode) (prefs : list pkey) : Prop :=
  (forall n, In n nodes -> infer n (prefs_for nodes prefs n) = Some n) /\
  (forall n a p o, In n nodes -> In a (ninputs n) -> In p nodes -> In o (noutputs p) -> aname o = aname a ->
     (forall p' o', In p' nodes -> In o' (noutputs p') -> aname o' = aname a -> aty o' = aty o) ->
     aty a = fst (merge_ty (aty o) (aty a))) /\
  (forall n a w p, In n nodes -> In a (ninputs n) -> In p nodes -> In (aname a) (map aname (noutputs p)) ->
     In w (wants n (aname a)) -> In (aname a, nname n, w) prefs).
