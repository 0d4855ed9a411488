(** Reshape, Transpose and the operators that compute with shapes, on integer
    tensors, as ONNX defines them. *)
From Coq Require Export Permutation Sorted.
From Verif Require Export IR_Model IR_Spec Tensor_Spec ShapeOps_Spec.
Local Open Scope N_scope.

(** The list of [l]'s entries at the positions [p]. *)
Definition pick (p : list nat) (l : list N) : list N := map (fun i => nth i l 0) p.
Definition positions (p : list Z) : list nat := map Z.to_nat p.

(** Transpose: output dimension [k] is input dimension [perm k], and so are the
    indices. *)
Definition transposed {A} (p : list nat) (x r : tensor A) : Prop :=
  Permutation p (seq 0 (length (tshape x))) /\ twf r /\ tshape r = pick p (tshape x) /\
  forall idx, valid_idx (tshape x) idx -> get r (pick p idx) = get x idx.

(** The dimensions other than 1 keep their order. *)
Definition in_order (p : list nat) (s : list N) : Prop :=
  StronglySorted lt (filter (fun i => negb (nth i s 0 =? 1)) p).

(** ** Operators on integer tensors.  A law says what the result is when there
    is one, and for Transpose that there is one. *)
Notation zt := (tensor Z).
Notation zsem := (string -> list (string * attr) -> nat -> list (option zt) -> option (list zt)).

Definition law_shape (sem : zsem) : Prop := forall k vs outs, sem "Shape"%string [] k vs = Some outs ->
  exists x r, vs = [Some x] /\ outs = [r] /\ tdata r = map Z.of_N (tshape x).

(** Gather along axis 0 of a list, with one index, possibly negative. *)
Definition law_gather (sem : zsem) : Prop := forall attrs k vs outs, sem "Gather"%string attrs k vs = Some outs ->
  sget attrs "axis" = None \/ sget attrs "axis" = Some (AInt 0) ->
  exists d i r, vs = [Some d; Some i] /\ outs = [r] /\
    forall z, tdata i = [z] -> exists v, tdata r = [v] /\
      let n := Z.of_nat (length (tdata d)) in
      (- n <= z < n)%Z /\ nth_error (tdata d) (Z.to_nat (if z <? 0 then z + n else z)%Z) = Some v.

Definition law_unsqueeze (sem : zsem) : Prop := forall attrs k vs outs, sem "Unsqueeze"%string attrs k vs = Some outs ->
  exists x more r, vs = Some x :: more /\ outs = [r] /\ tdata r = tdata x.

(** Concat of tensors of one element each. *)
Definition law_concat (sem : zsem) : Prop := forall attrs k vs outs, sem "Concat"%string attrs k vs = Some outs ->
  exists xs r, vs = map Some xs /\ outs = [r] /\
    forall l, map tdata xs = map (fun z => [z]) l -> tdata r = l.

Definition law_reshape (sem : zsem) : Prop := forall attrs k vs outs, sem "Reshape"%string attrs k vs = Some outs ->
  exists x s r allowzero, vs = [Some x; Some s] /\ outs = [r] /\ k = 1%nat /\
    tdata r = tdata x /\ reshape_of allowzero (tshape x) (tdata s) (tshape r).

Definition law_transpose (sem : zsem) : Prop := forall p x,
  Forall (fun z => 0 <= z)%Z p -> Permutation (positions p) (seq 0 (length (tshape x))) -> twf x ->
  exists r, sem "Transpose"%string [("perm"%string, AInts p)] 1%nat [Some x] = Some [r] /\ transposed (positions p) x r.

Record shape_laws (sem : zsem) : Prop := {
  sl_shape : law_shape sem;
  sl_gather : law_gather sem;
  sl_unsqueeze : law_unsqueeze sem;
  sl_concat : law_concat sem;
  sl_reshape : law_reshape sem;
  sl_transpose : law_transpose sem
}.

(** ** The graph *)

(** Embedded and absent inputs do not carry the name of an output. *)
Definition names_apart (nodes : list rnode) : Prop :=
  forall n i, In n nodes -> In i (ninputs n) ->
    match asrc i with VStatic _ | VOptional => ~ In (aname i) (flat_map (fun m => map aname (noutputs m)) nodes) | _ => True end.

(** Shape nodes give the whole shape, and the constant indices of Gather nodes
    are single numbers. *)
Definition whole_shapes (nodes : list rnode) : Prop :=
  forall n, In n nodes -> ntype n = "Shape"%string -> nattrs n = [].
Definition single_indices (scalar : arg -> option Z) (static : N -> option zt) (nodes : list rnode) (e : string -> option zt) : Prop :=
  forall n i z, In n nodes -> ntype n = "Gather"%string -> nth_error (ninputs n) 1 = Some i -> scalar i = Some z ->
    exists v, arg_eval static e i = Some (Some v) /\ tdata v = [z].

(** The input of a Shape node and the data of a Reshape node of the same name
    have the same value. *)
Definition one_value_per_name (static : N -> option zt) (nodes : list rnode) (e : string -> option zt) : Prop :=
  forall n m i j, In n nodes -> ntype n = "Shape"%string -> In i (ninputs n) ->
    In m nodes -> ntype m = "Reshape"%string -> nth_error (ninputs m) 0 = Some j -> aname i = aname j ->
    arg_eval static e i = arg_eval static e j.
