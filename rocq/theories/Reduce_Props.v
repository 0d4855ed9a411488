(** C58: the code emitted for reductions of integers and booleans. *)
From Coq Require Import Lia ZifyBool ZifyNat ZifyN.
From Verif Require Import ShapeRun_Spec ShapeRun_Model RankOps_Model TensorRun_Spec TensorRun_Model.
From Verif Require Import Reduce_Spec Reduce_Model Reduce_Nodes.
Import Tensor_Spec BinOps_Spec RankOps_Spec ShapeRun_Spec TensorRun_Spec.
Open Scope string_scope.
Open Scope list_scope.
Open Scope Z_scope.

Notation known value := (fun a => constant_of value a <> None).

(** Whatever the rank, the sizes, the elements, the axes (in any order, counted
    from the front or the back) and the element type: when the inputs of a
    reduction hold the values of an ONNX execution, the expression emitted for
    it, which reduces one dimension after the other, runs, and its result is a
    value of the recorded type standing for the ONNX result.
    Missing: the nodes outside [covered_reduce], some of which fail below. *)
Theorem C58_reduce_partial : forall value n d x rest outs o e,
  Forall2 (given value e) (ninputs n) ((d, x) :: rest) -> covered_reduce (known value) n ((d, x) :: rest) ->
  onnx_reduce_node n ((d, x) :: rest) outs -> noutputs n = [o] -> infer_reduce value n = IOk (aty o) ->
  exists r vs, gen_reduce value n = Some r /\ exec_reduce d e r = Some vs /\ all_stand (noutputs n) vs outs.
Proof. intros value n d x rest outs o e G C O Ho T. exact (reduce_node value n e d x rest outs G C O (ex_intro _ o (conj Ho T))). Qed.
Print Assumptions C58_reduce_partial.

(** *** Nodes that meet the hypotheses *)
Definition var (x : string) (t : argty) : arg := mkArg x t VDynamic.
Definition i64t (r : N) : argty := TensorT (mkTT I64 r None).
Definition no_values (a : arg) : option cval := None.
Definition cube : tensor elt := mkT [2; 2; 3]%N (map EI [1; -2; 3; 4; 5; -6; 7; 8; 9; -10; 11; 12]).
Definition with_x (t : tensor elt) : renv := bind (fun _ => None) "x" (RTensor t).
Ltac integer := do 2 eexists; split; [reflexivity|split; discriminate].
Ltac ints := repeat (apply Forall_cons; [integer|]); apply Forall_nil.
Ltac given_tensor := split; [discriminate|]; split; [split; [reflexivity|ints]|]; intros _; eexists; split; [reflexivity|]; split; [reflexivity|]; split; [ints|repeat split; discriminate].
Ltac tensor_arg := split; [exact I|]; split; [cbn; unfold i64_max; lia|]; eexists; split; reflexivity.
Ltac nd := repeat constructor; cbn; intuition lia.
(** The largest number of each column of the middle axis, the axis dropped. *)
Definition n_max := mkNode "ReduceMax" "n" [var "x" (i64t 3)] [var "y" (i64t 2)] [("axes", AInts [-2]); ("keepdims", AInt 0)].
Definition n_squares := mkNode "ReduceSumSquare" "n" [var "x" (i64t 3)] [var "y" (i64t 3)] [("axes", AInts [2; 0])].
Definition n_l1 := mkNode "ReduceL1" "n" [var "x" (i64t 3)] [var "y" (ScalarTensor I64)] [("keepdims", AInt 0)].
Lemma ax_drop1 : reduce_of [-2] false [2; 2; 3]%N [2; 3]%N.
Proof.
  split; [split; [intros a [<-|[]]; cbn; lia|nd]|].
  apply del_keep; [intros [C|(a & [<-|[]] & E)]; discriminate|]. apply del_drop; [right; exists (-2); split; [left; reflexivity|reflexivity]|].
  apply del_keep; [intros [C|(a & [<-|[]] & E)]; discriminate|]. apply del_nil.
Qed.
Lemma kept_ok axes s k : (0 < length s)%nat -> (forall a, In a axes -> - Z.of_nat (length s) <= a < Z.of_nat (length s)) -> NoDup (map (position (length s)) axes) ->
  k = Reduce_Proofs.kdims (reduced_axis (length s) axes) 0 s -> reduce_of axes true s k.
Proof.
  intros H0 Hv Hn ->. split; [split; assumption|]. split; [apply Reduce_Proofs.kdims_length|]. intros i d E. rewrite Reduce_Proofs.kdims_nth, E. cbn [Nat.add option_map].
  rewrite <- Reduce_Core.reduced_axis_spec. destruct (reduced_axis (length s) axes i); split; intros H; try reflexivity; [elim H; reflexivity|discriminate].
Qed.
Ltac kept := apply kept_ok; [cbn; lia|cbn; intros a Ha; repeat (destruct Ha as [<-|Ha]; [lia|]); destruct Ha|nd|reflexivity].

Example C58_max : exists outs,
  Forall2 (given no_values (with_x cube)) (ninputs n_max) [(I64, cube)] /\ covered_reduce (known no_values) n_max [(I64, cube)] /\
  onnx_reduce_node n_max [(I64, cube)] outs /\ infer_reduce no_values n_max = IOk (i64t 2) /\
  outs = [(I64, mkT [2; 3]%N (map EI [4; 5; 3; 7; 11; 12]))].
Proof.
  eexists. split; [constructor; [given_tensor|constructor]|]. split; [|split; [|split; [reflexivity|reflexivity]]].
  - eapply (cov_reduce _ n_max RMax _ [] I64 cube [] [-2] 0); try reflexivity; [tensor_arg|constructor|left; discriminate|right; right; cbn; lia|discriminate|discriminate].
  - eapply (or_reduce n_max RMax I64 cube [] [-2] 0); try reflexivity; [left; reflexivity|left; discriminate|].
    exists (mkT [2; 1; 3]%N (map EI [4; 5; 3; 7; 11; 12])). split; [kept|]. split; [vm_compute; reflexivity|]. split; [exact ax_drop1|reflexivity].
Qed.
Example C58_squares : exists outs,
  covered_reduce (known no_values) n_squares [(I64, cube)] /\ onnx_reduce_node n_squares [(I64, cube)] outs /\ infer_reduce no_values n_squares = IOk (i64t 3) /\
  outs = [(I64, mkT [1; 2; 1]%N (map EI [208; 442]))] .
Proof.
  eexists. split; [|split; [|split; reflexivity]].
  - eapply (cov_reduce _ n_squares RSumSquare _ [] I64 cube [] [2; 0] 1); try reflexivity; [tensor_arg|constructor|left; discriminate|right; left; reflexivity|discriminate|intros [C|C]; discriminate].
  - eapply (or_reduce n_squares RSumSquare I64 cube [] [2; 0] 1); try reflexivity; [right; reflexivity|left; discriminate|].
    eexists (mkT [1; 2; 1]%N (map EI [208; 442])). split; [kept|]. split; [vm_compute; reflexivity|]. split; [kept|reflexivity].
Qed.
Example C58_l1 : exists outs,
  covered_reduce (known no_values) n_l1 [(I64, cube)] /\ onnx_reduce_node n_l1 [(I64, cube)] outs /\ infer_reduce no_values n_l1 = IOk (ScalarTensor I64) /\
  outs = [(I64, mkT [] [EI 78])] /\ exec_reduce I64 (with_x cube) (XOne (XAll MSum (XFn FAbs (XVar "x")))) = Some [RTensor (mkT [1]%N [EI 78])].
Proof.
  eexists. split; [|split; [|split; [reflexivity|split; [reflexivity|vm_compute; reflexivity]]]].
  - eapply (cov_reduce _ n_l1 RL1 _ [] I64 cube [] [] 0); try reflexivity; [tensor_arg|constructor|right; reflexivity|right; right; cbn; lia|discriminate|intros [C|C]; discriminate].
  - eapply (or_reduce n_l1 RL1 I64 cube [] [] 0); try reflexivity; [left; reflexivity|right; reflexivity|].
    exists (mkT [1; 1; 1]%N [EI 78]). split; [kept|]. split; [vm_compute; reflexivity|]. split; [|reflexivity]. split; [split; [intros a []|constructor]|].
    repeat (apply del_drop; [left; reflexivity|]). apply del_nil.
Qed.
(** Sums and products: the parts of these groups are small. *)
Definition pair_x : tensor elt := mkT [1; 2]%N (map EI [3; -4]).
Definition n_prod := mkNode "ReduceProd" "n" [var "x" (i64t 2)] [var "y" (i64t 1)] [("axes", AInts [1]); ("keepdims", AInt 0)].
Example C58_prod : covered_reduce (known no_values) n_prod [(I64, pair_x)] /\ onnx_reduce_node n_prod [(I64, pair_x)] [(I64, mkT [1]%N [EI (-12)])].
Proof.
  split.
  - eapply (cov_reduce _ n_prod RProd _ [] I64 pair_x [] [1] 0); try reflexivity; [tensor_arg|constructor|left; discriminate|right; right; cbn; lia|discriminate|intros [C|C]; discriminate|].
    intros j l zs E1 E2. unfold group, agree in E1. destruct j as [|[|p] j]; vm_compute in E1; injection E1 as <-; vm_compute in E2; injection E2 as <-; reflexivity.
  - eapply (or_reduce n_prod RProd I64 pair_x [] [1] 0); try reflexivity; [left; reflexivity|left; discriminate|].
    exists (mkT [1; 1]%N [EI (-12)]). split; [kept|]. split; [vm_compute; reflexivity|]. split; [|reflexivity]. split; [split; [intros a [<-|[]]; cbn; lia|nd]|].
    apply del_keep; [intros [C|(a & [<-|[]] & E)]; discriminate|]. apply del_drop; [right; exists 1; split; [left; reflexivity|reflexivity]|]. apply del_nil.
Qed.
(** Booleans, all axes named and dropped. *)
Definition n_any := mkNode "ReduceMax" "n" [var "x" (TensorT (mkTT BoolT 2 None))] [var "y" (ScalarTensor BoolT)] [("axes", AInts [0; 1]); ("keepdims", AInt 0)].
Definition bools : tensor elt := mkT [2; 2]%N (map EB [false; false; true; false]).
Example C58_any : covered_reduce (known no_values) n_any [(BoolT, bools)] /\ onnx_reduce_node n_any [(BoolT, bools)] [(BoolT, mkT [] [EB true])] /\
  infer_reduce no_values n_any = IOk (ScalarTensor BoolT) /\
  option_map (exec_reduce BoolT (with_x bools)) (gen_reduce no_values n_any) = Some (Some [RTensor (mkT [1]%N [EB true])]).
Proof.
  split; [|split; [|split; [reflexivity|vm_compute; reflexivity]]].
  - eapply (cov_reduce _ n_any RMax _ [] BoolT bools [] [0; 1] 0); try reflexivity; [tensor_arg|constructor|left; discriminate|left; reflexivity|auto|discriminate].
  - eapply (or_reduce n_any RMax BoolT bools [] [0; 1] 0); try reflexivity; [left; reflexivity|left; discriminate|].
    exists (mkT [1; 1]%N [EB true]). split; [kept|]. split; [vm_compute; reflexivity|]. split; [|reflexivity]. split; [split; [intros a [<-|[<-|[]]]; cbn; lia|nd]|].
    apply del_drop; [right; exists 0; split; [left; reflexivity|reflexivity]|]. apply del_drop; [right; exists 1; split; [right; left; reflexivity|reflexivity]|]. apply del_nil.
Qed.

(** ** What [covered_reduce] leaves out *)
Definition fails (n : rnode) (ins outs : list otensor) (e : renv) : Prop :=
  exists d x rest o, ins = (d, x) :: rest /\ Forall2 (given no_values e) (ninputs n) ins /\ onnx_reduce_node n ins outs /\ noutputs n = [o] /\
  infer_reduce no_values n = IOk (aty o) /\
  ~ exists r vs, gen_reduce no_values n = Some r /\ exec_reduce d e r = Some vs /\ all_stand (noutputs n) vs outs.

(** All axes named and dropped: the emitted code asks for a result of rank one
    with every dimension squeezed away, and stops (by what is assumed of
    [squeeze_dims], TensorRun_Model). *)
Definition vec : tensor elt := mkT [3]%N (map EI [1; 2; 3]).
Theorem C58_every_axis_refuted : exists n ins outs e, ntype n = "ReduceSum" /\ get_attr n "axes" = Some (AInts [0]) /\ fails n ins outs e.
Proof.
  exists (mkNode "ReduceSum" "n" [var "x" (i64t 1)] [var "y" (ScalarTensor I64)] [("axes", AInts [0]); ("keepdims", AInt 0)]), [(I64, vec)], [(I64, mkT [] [EI 6])], (with_x vec).
  split; [reflexivity|]. split; [reflexivity|]. exists I64, vec, [], (var "y" (ScalarTensor I64)). split; [reflexivity|]. split; [constructor; [given_tensor|constructor]|].
  split; [|split; [reflexivity|split; [reflexivity|]]].
  - eapply (or_reduce _ RSum I64 vec [] [0] 0); try reflexivity; [left; reflexivity|left; discriminate|].
    exists (mkT [1]%N [EI 6]). split; [kept|]. split; [vm_compute; reflexivity|]. split; [|reflexivity]. split; [split; [intros a [<-|[]]; cbn; lia|nd]|].
    apply del_drop; [right; exists 0; split; [left; reflexivity|reflexivity]|]. apply del_nil.
  - intros (r & vs & G & E & _). vm_compute in G. injection G as <-. vm_compute in E. discriminate E.
Qed.
(** [noop_with_empty_axes]: ignored; everything is reduced. *)
Theorem C58_noop_refuted : exists n ins outs e, ntype n = "ReduceSum" /\ get_attr n "noop_with_empty_axes" = Some (AInt 1) /\ fails n ins outs e.
Proof.
  exists (mkNode "ReduceSum" "n" [var "x" (i64t 1)] [var "y" (i64t 1)] [("noop_with_empty_axes", AInt 1)]), [(I64, vec)], [(I64, vec)], (with_x vec).
  split; [reflexivity|]. split; [reflexivity|]. exists I64, vec, [], (var "y" (i64t 1)). split; [reflexivity|]. split; [constructor; [given_tensor|constructor]|].
  split; [|split; [reflexivity|split; [reflexivity|]]].
  - eapply (or_noop _ RSum I64 vec []); reflexivity.
  - intros (r & vs & G & E & S). vm_compute in G. injection G as <-. vm_compute in E. injection E as <-. destruct S as [(_ & _ & S & _) _]. discriminate S.
Qed.
(** Axes computed at run time: ignored; everything is reduced. *)
Definition matrix : tensor elt := mkT [2; 2]%N (map EI [1; 2; 3; 4]).
Definition with_axes : renv := bind (with_x matrix) "a" (RTensor (mkT [1]%N [EI 0])).
Theorem C58_runtime_axes_refuted : exists n ins outs e a, ntype n = "ReduceSum" /\ nth_error (ninputs n) 1 = Some a /\ run_time a /\ fails n ins outs e.
Proof.
  exists (mkNode "ReduceSum" "n" [var "x" (i64t 2); var "a" (i64t 1)] [var "y" (i64t 2)] []), [(I64, matrix); (I64, mkT [1]%N [EI 0])],
    [(I64, mkT [1; 2]%N (map EI [4; 6]))], with_axes, (var "a" (i64t 1)).
  split; [reflexivity|]. split; [reflexivity|]. split; [exact I|]. exists I64, matrix, [(I64, mkT [1]%N [EI 0])], (var "y" (i64t 2)). split; [reflexivity|].
  split; [constructor; [given_tensor|constructor; [given_tensor|constructor]]|]. split; [|split; [reflexivity|split; [reflexivity|]]].
  - eapply (or_reduce _ RSum I64 matrix [_] [0] 1); try reflexivity; [right; reflexivity|left; discriminate|].
    exists (mkT [1; 2]%N (map EI [4; 6])). split; [kept|]. split; [vm_compute; reflexivity|]. split; [kept|reflexivity].
  - intros (r & vs & G & E & S). vm_compute in G. injection G as <-. vm_compute in E. injection E as <-. destruct S as [(_ & _ & S & _) _]. discriminate S.
Qed.
