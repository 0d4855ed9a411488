(** C59: the code emitted for reductions of real numbers. *)
From Coq Require Import Lia ZifyBool ZifyNat ZifyN Lra.
From Verif Require Import ShapeRun_Spec ShapeRun_Model RankOps_Model TensorRun_Spec TensorRun_Model.
From Verif Require Import Reduce_Spec Reduce_Model Reduce_Nodes ReduceR_Spec ReduceR_Model ReduceR_Nodes.
Import Tensor_Spec BinOps_Spec RankOps_Spec ShapeRun_Spec TensorRun_Spec.
Open Scope string_scope.
Open Scope list_scope.
Open Scope R_scope.

(** All ten reductions, whatever the rank, the sizes, the elements and the axes
    (in any order, counted from the front or the back): when the input holds
    the value of an ONNX execution, the emitted expression runs, and its result
    is the ONNX result, held as the recorded type says.
    Missing: the nodes outside [covered_real], some of which fail below, and
    floating-point rounding. *)
Theorem C59_real_reduce_partial : forall value n a args x rest z o e,
  ninputs n = a :: args -> Forall2 (fun b c => constant_of value b = Some c) args rest -> input_holds e a x ->
  covered_real n a x rest -> onnx_real_reduce n x rest z -> noutputs n = [o] -> infer_reduce value n = IOk (aty o) ->
  exists rx t, gen_reduce value n = Some rx /\ reval reals e rx = Some t /\ held_for (aty o) t z.
Proof. exact real_reduce_node. Qed.
Print Assumptions C59_real_reduce_partial.

(** *** Nodes that meet the hypotheses *)
Definition var (x : string) (t : argty) : arg := mkArg x t VDynamic.
Definition f32t (r : N) : argty := TensorT (mkTT F32 r None).
Definition no_values (a : arg) : option cval := None.
Definition with_named (nm : string) (t : tensor real) : tenv := fun y => if String.eqb y nm then Some t else None.
Ltac nd := repeat constructor; cbn; intuition lia.
Lemma kept_ok axes s k : (0 < length s)%nat -> (forall a, In a axes -> (- Z.of_nat (length s) <= a < Z.of_nat (length s))%Z) -> NoDup (map (position (length s)) axes) ->
  k = Reduce_Proofs.kdims (reduced_axis (length s) axes) 0 s -> reduce_of axes true s k.
Proof.
  intros H0 Hv Hn ->. split; [split; assumption|]. split; [apply Reduce_Proofs.kdims_length|]. intros i d E. rewrite Reduce_Proofs.kdims_nth, E. cbn [Nat.add option_map].
  rewrite <- Reduce_Core.reduced_axis_spec. destruct (reduced_axis (length s) axes i); split; intros H; try reflexivity; [elim H; reflexivity|discriminate].
Qed.
Ltac kept := apply kept_ok; [cbn; lia|cbn; intros a Ha; repeat (destruct Ha as [<-|Ha]; [lia|]); destruct Ha|nd|reflexivity].
Ltac holds := split; [reflexivity|split; [reflexivity|eexists; split; [reflexivity|split; [reflexivity|unfold i64_max; cbn; lia]]]].
Lemma drop_last : reduce_of [-1]%Z false [2; 2]%N [2]%N.
Proof.
  split; [split; [intros a [<-|[]]; cbn; lia|nd]|].
  apply del_keep; [intros [C|(a & [<-|[]] & E)]; discriminate|]. apply del_drop; [right; exists (-1)%Z; split; [left; reflexivity|reflexivity]|]. apply del_nil.
Qed.

(** The mean of each row, the axis dropped. *)
Definition square : tensor real := mkT [2; 2]%N [0; 0; 1; 1].
Definition n_mean := mkNode "ReduceMean" "n" [var "x" (f32t 2)] [var "y" (f32t 1)] [("axes", AInts [-1]%Z); ("keepdims", AInt 0)].
Example C59_mean : exists z, input_holds (with_named "x" square) (var "x" (f32t 2)) square /\ covered_real n_mean (var "x" (f32t 2)) square [] /\
  onnx_real_reduce n_mean square [] z /\ infer_reduce no_values n_mean = IOk (f32t 1) /\ z = mkT [2]%N [0; 1].
Proof.
  eexists. split; [holds|]. split; [|split; [|split; reflexivity]].
  - apply (cov_real n_mean _ square [] QMean (mkTT F32 2 None) [-1]%Z 0); try reflexivity; [right; cbn; lia|discriminate|intros []|discriminate].
  - apply (oq_reduce n_mean square [] QMean [-1]%Z 0); try reflexivity; [left; reflexivity|left; discriminate|].
    exists (mkT [2; 1]%N [0; 1]). split; [kept|]. split; [|split; [exact drop_last|reflexivity]].
    unfold tab, square. cbn. apply (f_equal (fun l => Some (mkT _ l))). cbn. replace (1 + 1) with 2 by lra. f_equal; [lra|f_equal; lra].
Qed.
(** The logarithm of the sum of the exponentials of everything. *)
Definition pair_x : tensor real := mkT [1; 2]%N [0; 0].
Definition n_lse := mkNode "ReduceLogSumExp" "n" [var "x" (f32t 2)] [var "y" (f32t 2)] [].
Example C59_log_sum_exp : exists z, input_holds (with_named "x" pair_x) (var "x" (f32t 2)) pair_x /\ covered_real n_lse (var "x" (f32t 2)) pair_x [] /\
  onnx_real_reduce n_lse pair_x [] z /\ infer_reduce no_values n_lse = IOk (f32t 2) /\ z = mkT [1; 1]%N [ln 2].
Proof.
  eexists. split; [holds|]. split; [|split; [|split; reflexivity]].
  - apply (cov_real n_lse _ pair_x [] QLogSumExp (mkTT F32 2 None) [] 1); try reflexivity; [left; reflexivity|intros _; left; reflexivity|cbn; intuition discriminate|discriminate].
  - apply (oq_reduce n_lse pair_x [] QLogSumExp [] 1); try reflexivity; [right; reflexivity|right; reflexivity|].
    exists (mkT [1; 1]%N [ln 2]). split; [kept|]. split; [|split; [kept|reflexivity]].
    lazy -[exp logarithm ln sqrt Rplus Rmult Rminus IZR Rsqr Rmax]. rewrite exp_0. replace (1 + (1 + 0)) with 2 by lra. unfold logarithm. destruct (Rlt_dec 0 2); [reflexivity|lra].
Qed.

(** ** What [covered_real] leaves out *)
Definition fails (n : rnode) (x z : tensor real) (e : tenv) : Prop :=
  exists a o, ninputs n = [a] /\ input_holds e a x /\ onnx_real_reduce n x [] z /\ noutputs n = [o] /\ infer_reduce no_values n = IOk (aty o) /\
  ~ exists rx t, gen_reduce no_values n = Some rx /\ reval reals e rx = Some t /\ held_for (aty o) t z.

Lemma log_pos v : 0 < v -> logarithm v = Some (ln v).
Proof. intros H. unfold logarithm. destruct (Rlt_dec 0 v); [reflexivity|contradiction]. Qed.
(** ReduceLogSumExp with an axis dropped: the maxima are subtracted along the
    wrong axis (reduce.rs:271-315 expands the reduced tensor as it is).  The
    result for the rows (0, 0), (1, 1) starts with ln (1 + 1/e), not ln 2. *)
Definition n_lse_drop := mkNode "ReduceLogSumExp" "n" [var "x" (f32t 2)] [var "y" (f32t 1)] [("axes", AInts [-1]%Z); ("keepdims", AInt 0)].
Theorem C59_log_sum_exp_drop_refuted : exists n x z e, ntype n = "ReduceLogSumExp" /\ get_attr n "keepdims" = Some (AInt 0) /\ fails n x z e.
Proof.
  exists n_lse_drop, square, (mkT [2]%N [ln 2; ln (2 * exp 1)]), (with_named "x" square). split; [reflexivity|]. split; [reflexivity|].
  exists (var "x" (f32t 2)), (var "y" (f32t 1)). split; [reflexivity|]. split; [holds|]. split; [|split; [reflexivity|split; [reflexivity|]]].
  - apply (oq_reduce n_lse_drop square [] QLogSumExp [-1]%Z 0); try reflexivity; [left; reflexivity|left; discriminate|].
    exists (mkT [2; 1]%N [ln 2; ln (2 * exp 1)]). split; [kept|]. split; [|split; [exact drop_last|reflexivity]].
    pose proof (exp_pos 1). lazy -[exp logarithm ln sqrt Rplus Rmult Rminus IZR Rsqr Rmax]. rewrite exp_0. replace (1 + (1 + 0)) with 2 by lra. replace (exp 1 + (exp 1 + 0)) with (2 * exp 1) by lra.
    rewrite !log_pos by lra. reflexivity.
  - intros (rx & t & G & E & -> & _). vm_compute in G. injection G as <-. unfold square, with_named in E. lazy -[exp logarithm ln sqrt Rplus Rmult Rminus IZR Rsqr Rmax] in E.
    rewrite !Rmax_left in E by lra. unfold b_two in E. lazy -[exp logarithm ln sqrt Rplus Rmult Rminus IZR Rsqr Rmax] in E.
    pose proof (exp_pos (0 - 0)). pose proof (exp_pos (0 - 1)). pose proof (exp_pos (1 - 0)). pose proof (exp_pos (1 - 1)).
    repeat match type of E with context [logarithm ?v] => rewrite (log_pos v) in E by lra end.
    lazy -[exp ln sqrt Rplus Rmult Rminus IZR] in E. injection E as E _.
    assert (ln (0 + exp (0 - 0) + exp (0 - 1)) < ln 2); [|lra]. apply ln_increasing; [lra|]. replace (0 - 0) with 0 by lra. rewrite exp_0. assert (exp (0 - 1) < exp 0) by (apply exp_increasing; lra). rewrite exp_0 in *. lra.
Qed.
(** An input called like one of the helper variables: the emitted block binds
    that name to something else before it reads the input. *)
Definition n_l2_name := mkNode "ReduceL2" "n" [var "input_dtype" (f32t 2)] [var "y" (f32t 2)] [].
Definition zeros : tensor real := mkT [1; 2]%N [0; 0].
Theorem C59_helper_name_refuted : exists n x z e, ntype n = "ReduceL2" /\ nattrs n = [] /\ fails n x z e.
Proof.
  exists n_l2_name, zeros, (mkT [1; 1]%N [0]), (with_named "input_dtype" zeros). split; [reflexivity|]. split; [reflexivity|].
  exists (var "input_dtype" (f32t 2)), (var "y" (f32t 2)). split; [reflexivity|]. split; [holds|]. split; [|split; [reflexivity|split; [reflexivity|]]].
  - apply (oq_reduce n_l2_name zeros [] QL2 [] 1); try reflexivity; [right; reflexivity|right; reflexivity|].
    exists (mkT [1; 1]%N [0]). split; [kept|]. split; [|split; [kept|reflexivity]].
    lazy -[exp logarithm ln sqrt Rplus Rmult Rminus IZR Rsqr Rmax]. unfold Rsqr. replace (0 * 0 + (0 * 0 + 0)) with 0 by lra. rewrite sqrt_0. reflexivity.
  - intros (rx & t & G & E & _). vm_compute in G. injection G as <-. discriminate E.
Qed.
