(** The code of whole nodes that work on lines. *)
From Coq Require Import Lia ZifyBool ZifyNat ZifyN.
From Verif Require Import Tensor_Proofs ShapeOps_Proofs RankOps_Proofs TensorRun_Model TensorRun_Proofs MatMul_Proofs Lines_Proofs.
From Verif Require Export Lines_Model.
From Verif Require Import ShapeOps_Spec.
Import Lines_Spec Tensor_Spec.
Local Open Scope N_scope.

Lemma split_axis {A} axis (x : tensor A) rank : axis_ok axis x -> rank = N.of_nat (length (tshape x)) -> rank < 2 ^ 63 ->
  exists P d Q, tshape x = P ++ d :: Q /\ length P = position (length (tshape x)) axis /\ length P = N.to_nat (norm_axis rank axis) /\ norm_axis rank axis = N.of_nat (length P).
Proof.
  unfold axis_ok. intros Ha -> Hr. set (r := length (tshape x)) in *.
  assert (Hp : (position r axis < r)%nat). { unfold position. pose proof (Z.mod_pos_bound axis (Z.of_nat r)). lia. }
  assert (En : norm_axis (N.of_nat r) axis = N.of_nat (position r axis)).
  { rewrite norm_axis_position; [rewrite Nat2N.id; reflexivity| |lia]. change 9223372036854775808 with (2 ^ 63). exact Hr. }
  destruct (nth_error (tshape x) (position r axis)) as [d|] eqn:E; [|apply nth_error_None in E; fold r in E; lia].
  destruct (nth_error_split _ _ E) as (P & Q & Ex & LP). exists P, d, Q. rewrite En. repeat split; [exact Ex|exact LP|lia|congruence].
Qed.

Section Nodes.
  Context {T : Type} (le : T -> T -> bool) (zero one : T) (add : T -> T -> T) (sm lsm : list T -> list T).
  Hypothesis total : forall a b, le a b = true \/ le b a = true.
  Hypothesis trans : forall a b c, le a b = true -> le b c = true -> le a c = true.

  Lemma lset_same (e : lenv T) x v : lset e x v x = Some v.
  Proof. unfold lset. rewrite String.eqb_refl. reflexivity. Qed.
  Lemma lset_other (e : lenv T) x v y : y <> x -> lset e x v y = e y.
  Proof. intros H. unfold lset. destruct (String.eqb_spec y x); [contradiction|reflexivity]. Qed.

  Lemma arg_ok mx (n : rnode) (i o : arg) (x : tensor T) (e : lenv T) ty :
    ninputs n = [i] -> noutputs n = [o] -> infer_arg n = IOk ty -> chosen ty (aty o) ->
    lholds e i x -> axis_ok (axis_or n 0) x -> not_empty (axis_or n 0) x ->
    exists c e', gen_arg mx n = Some c /\ lexec le zero one add sm lsm e (aname o) c = Some e' /\
      (exists z v, arg_result (order le mx) (axis_or n 0) (keeps n) x z /\ e' (aname o) = Some v /\ index_form (aty o) z v) /\
      forall y, y <> aname o -> y <> helper mx -> e' y = e y.
  Proof.
    intros Hi Ho Hty Hch (W & t & Ht & He & Hr & H63) Ha Hne.
    assert (Ot : forall a b, order le mx a b = true \/ order le mx b a = true) by (intros a b; unfold order, flipped; destruct mx; [apply total|destruct (total a b); auto]).
    assert (Otr : forall a b c, order le mx a b = true -> order le mx b c = true -> order le mx a c = true) by (intros a b c; unfold order, flipped; destruct mx; intros; eauto).
    unfold infer_arg, first_input in Hty. rewrite Hi in Hty. cbn [ibind] in Hty. rewrite Ht in Hty.
    destruct (arg_config n) as [[axis keep]| |] eqn:Ec; cbn [iexpect ibind snd] in Hty; try discriminate.
    assert (Ec' : axis = norm_axis (tt_rank t) (axis_or n 0) /\ keep = keeps n).
    { clear - Ec Hi Ht. unfold arg_config, first_input in Ec. rewrite Hi in Ec. cbn [ibind] in Ec. rewrite Ht in Ec. unfold attr_i64_or in Ec. unfold axis_or, keeps.
      destruct (get_attr n "axis") as [[]|]; cbn [attr_i64 ibind] in Ec; try discriminate;
      destruct (get_attr n "keepdims") as [[]|]; cbn [attr_i64 ibind] in Ec; try discriminate;
      destruct (get_attr n "select_last_index") as [[]|]; cbn [attr_i64 ibind] in Ec; try discriminate;
      destruct (_ && _)%bool; try discriminate; destruct (negb _) in Ec; try discriminate; injection Ec as <- <-; split; reflexivity. }
    destruct Ec' as [Ea Ek].
    destruct (split_axis (axis_or n 0) x (tt_rank t) Ha Hr H63) as (P & d & Q & Ex & LP & La & LN). rewrite <- Ea in La, LN.
    assert (Hd : 0 < d). { apply (Hne d). rewrite <- LP, Ex, nth_error_app2, Nat.sub_diag by lia. reflexivity. }
    destruct (b_arg_ok (order le mx) Ot Otr axis x P d Q W Ex La Hd) as (k & Hk & Wk & Sk & Lk).
    assert (BL : by_lines (arg_line (order le mx)) (axis_or n 0) x k).
    { split; [exact Wk|]. split; [exact Ha|]. exists P, d, Q, 1. auto. }
    assert (Lx : length (tshape x) = S (length (P ++ Q))) by (rewrite Ex, !app_length; cbn; lia).
    unfold gen_arg. rewrite Ec, Hi, Ho.
    assert (Hx : ltens e (aname i) = Some x) by (unfold ltens; rewrite He; reflexivity).
    assert (Fr : forall (v w : lval T) y, y <> aname o -> y <> helper mx -> lset (lset e (helper mx) w) (aname o) v y = e y).
    { intros v w y H1 H2. rewrite !lset_other by assumption. reflexivity. }
    assert (One : tt_rank t = 1 -> exists w, P = [] /\ Q = [] /\ tdata k = [w] /\ b_reshape [1] k = Some k).
    { intros E1. assert (length (P ++ Q) = 0%nat) by lia. destruct P; [|cbn in *; lia]. destruct Q; [|cbn in *; lia].
      unfold twf in Wk. rewrite Sk in Wk. change (length (tdata k) = 1%nat) in Wk. destruct (tdata k) as [|w [|]] eqn:Ed; try discriminate Wk. exists w. do 3 (split; [reflexivity|]).
      unfold b_reshape. destruct k as [s dd]. cbn [tshape tdata] in *. subst s dd. reflexivity. }
    rewrite <- Ek. unfold arg_result. destruct keep.
    - injection Hty as <-. destruct Hch as [->|(? & ? & _)]; [|discriminate]. cbn [tt_rank].
      eexists _, _. split; [reflexivity|]. cbn [lexec]. rewrite Hx. cbn [obind]. rewrite Hk. cbn [obind]. split; [reflexivity|]. split.
      + exists k, (LI k). split; [exact BL|]. split; [apply lset_same|]. cbn [index_form tt_rank]. split; [reflexivity|]. rewrite Sk, app_length. cbn [length]. rewrite app_length in Lx. split; lia.
      + intros y H1 H2. apply lset_other. exact H1.
    - destruct (N.eqb_spec (tt_rank t) 1) as [E1|E1]; injection Hty as <-.
      + destruct (One E1) as (w & -> & -> & Ed & Er).
        destruct Hch as [->|(d0 & E0 & ->)].
        * eexists _, _. split; [reflexivity|]. cbn [lexec]. rewrite Hx. cbn [obind]. rewrite Hk. cbn [obind]. rewrite Er. cbn [obind]. split; [reflexivity|]. split.
          -- exists (mkT [] (tdata k)), (LI k). split; [exists k, [], []; split; [exact BL|]; split; [exact Sk|]; split; [exact LP|reflexivity]|]. split; [apply lset_same|]. cbn [index_form tshape tdata]. split; [reflexivity|]. destruct k as [s dd]. cbn [tshape] in Sk. rewrite Sk. reflexivity.
          -- intros y H1 H2. apply lset_other. exact H1.
        * eexists _, _. split; [reflexivity|]. cbn [lexec]. rewrite Hx. cbn [obind]. rewrite Hk. cbn [obind]. rewrite Ed. split; [reflexivity|]. split.
          -- exists (mkT [] (tdata k)), (LNative w). split; [exists k, [], []; split; [exact BL|]; split; [exact Sk|]; split; [exact LP|reflexivity]|]. split; [apply lset_same|]. cbn [index_form tshape tdata]. split; [reflexivity|]. exists w. auto.
          -- intros y H1 H2. apply Fr; assumption.
      + destruct Hch as [->|(? & ? & _)]; [|discriminate]. cbn [tt_rank].
        assert (Eu : usub (tt_rank t) 1 = N.of_nat (length (P ++ Q))). { unfold usub. replace (1 <=? tt_rank t) with true by lia. lia. }
        eexists _, _. split; [reflexivity|]. cbn [lexec]. rewrite Hx. cbn [obind]. rewrite Hk. cbn [obind]. rewrite LN, nat_N_Z, (squeeze_at P Q k _ Sk Wk Eu). cbn [obind]. split; [reflexivity|]. split.
        * exists (mkT (P ++ Q) (tdata k)), (LI (mkT (P ++ Q) (tdata k))). split; [exists k, P, Q; split; [exact BL|]; split; [exact Sk|]; split; [exact LP|reflexivity]|]. split; [apply lset_same|]. cbn [index_form tt_rank tshape]. split; [reflexivity|]. split; [exact Eu|]. lia.
        * intros y H1 H2. apply Fr; assumption.
  Qed.

  (** The axis of a softmax. *)
  Lemma line_axis_ok (n : rnode) opset (i : arg) (x : tensor T) (e : lenv T) : ninputs n = [i] -> int_axis n -> lholds e i x -> axis_ok (softmax_axis n opset) x ->
    exists a P d Q, line_axis opset n = IOk a /\ tshape x = P ++ d :: Q /\ length P = position (length (tshape x)) (softmax_axis n opset) /\ length P = N.to_nat a.
  Proof.
    intros Hi Hint (W & t & Ht & He & Hr & H63) Ha. destruct (split_axis _ x (tt_rank t) Ha Hr H63) as (P & d & Q & Ex & LP & La & _).
    exists (norm_axis (tt_rank t) (softmax_axis n opset)), P, d, Q. split; [|auto]. unfold line_axis. rewrite Hi, Ht. unfold attr_i64_or, softmax_axis, axis_or.
    destruct (get_attr n "axis") as [a|] eqn:E; [|reflexivity]. destruct (Hint a E) as (z & ->). reflexivity.
  Qed.
  Lemma operator_ok (f : list T -> list T -> Prop) opset axis (x z : tensor T) : tshape z = tshape x -> (opset < 13 -> ends_at axis x) -> by_lines f axis x z -> line_operator opset f axis x z.
  Proof. intros Ez H B. unfold line_operator. destruct (N.ltb_spec opset 13) as [Ho|Ho]; [|exact B]. apply rows_of_lines; [exact Ez|apply H; exact Ho|exact B]. Qed.

  Lemma hardmax_ok (n : rnode) opset (i : arg) (x : tensor T) (e : lenv T) out : add zero one = one ->
    ninputs n = [i] -> int_axis n -> lholds e i x -> axis_ok (softmax_axis n opset) x -> not_empty (softmax_axis n opset) x -> (opset < 13 -> ends_at (softmax_axis n opset) x) ->
    exists c z, gen_line LHardmax opset n = Some c /\ lexec le zero one add sm lsm e out c = Some (lset e out (LT z)) /\ line_operator opset (hard_line le zero one) (softmax_axis n opset) x z.
  Proof.
    intros Hadd Hi Hint Hx Ha Hne Hend. destruct (line_axis_ok n opset i x e Hi Hint Hx Ha) as (a & P & d & Q & Eg & Ex & LP & La). destruct Hx as (W & t & Ht & He & _).
    assert (Hd : 0 < d). { apply (Hne d). rewrite <- LP, Ex, nth_error_app2, Nat.sub_diag by lia. reflexivity. }
    destruct (hard_ok le zero one add a x P d Q total trans Hadd W Ex La Hd) as (ix & z & Hix & Hz & Wz & Sz & Lz).
    exists (LHardmax (aname i) a), z. unfold gen_line. rewrite Eg, Hi. split; [reflexivity|]. cbn [lexec]. unfold ltens. rewrite He. cbn [obind]. rewrite Hix. cbn [obind]. rewrite Hz. split; [reflexivity|].
    apply operator_ok; [congruence|exact Hend|]. split; [exact Wz|]. split; [exact Ha|]. exists P, d, Q, d. auto.
  Qed.
  Lemma softmax_ok (f : list T -> list T -> Prop) (g : list T -> list T) op (n : rnode) opset (i : arg) (x : tensor T) (e : lenv T) out :
    (forall l, f l (g l)) -> (forall l, length (g l) = length l) ->
    (op = LSoftmax /\ g = sm \/ op = LLogSoftmax /\ g = lsm) ->
    ninputs n = [i] -> int_axis n -> lholds e i x -> axis_ok (softmax_axis n opset) x -> (opset < 13 -> ends_at (softmax_axis n opset) x) ->
    exists c z, gen_line op opset n = Some c /\ lexec le zero one add sm lsm e out c = Some (lset e out (LT z)) /\ line_operator opset f (softmax_axis n opset) x z.
  Proof.
    intros Hf Hl Hop Hi Hint Hx Ha Hend. destruct (line_axis_ok n opset i x e Hi Hint Hx Ha) as (a & P & d & Q & Eg & Ex & LP & La). destruct Hx as (W & t & Ht & He & _).
    destruct (b_lines_ok (fun l => Some (g l)) (fun d => d) a x P d Q W Ex La) as (z & Hz & Wz & Sz & Lz).
    { intros l Ll. exists (g l). split; [reflexivity|]. rewrite Hl. exact Ll. }
    exists (op (aname i) a), z. unfold gen_line. rewrite Eg, Hi. split; [reflexivity|]. split.
    - destruct Hop as [[-> Eg']|[-> Eg']]; rewrite Eg' in Hz; cbn [lexec]; unfold ltens; rewrite He; cbn [obind]; rewrite Hz; reflexivity.
    - apply operator_ok; [congruence|exact Hend|]. split; [exact Wz|]. split; [exact Ha|]. exists P, d, Q, d. do 3 (split; [assumption|]).
      intros p q Hp Hq. destruct (Lz p q Hp Hq) as (l & m & Hl' & Hm & E). injection E as <-. exists l, (g l). auto.
  Qed.
End Nodes.
