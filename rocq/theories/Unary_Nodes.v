(** PRelu and Clip. *)
From Verif Require Export Unary_Proofs.
From Verif Require Import Tensor_Proofs MatMul_Model TensorRun_Model Norm_Proofs Norm_Nodes Norm_Model Index_Model Linear_Model Linear_Proofs.
From Coq Require Import Reals Lra Lia ZifyNat ZifyN ZifyBool.
Import Conv_Spec Unary_Spec Tensor_Spec.
Local Open Scope N_scope.

Lemma bproj_one t idx : (length t < length idx)%nat -> bproj (1 :: t) idx = 0 :: bproj t idx.
Proof.
  intros L. unfold bproj. cbn [length]. replace (length idx - length t)%nat with (S (length idx - S (length t)))%nat by lia.
  remember (length idx - S (length t))%nat as k. assert (K : (k < length idx)%nat) by lia. clear Heqk L. revert idx K. induction k as [|k IH]; intros idx K; destruct idx as [|i idx]; cbn [length] in K; try lia; [reflexivity|].
  change (skipn (S k) (i :: idx)) with (skipn k idx). change (skipn (S (S k)) (i :: idx)) with (skipn (S k) idx). apply IH. lia.
Qed.
Lemma bproj_pad k t idx : (k + length t <= length idx)%nat -> offset (repeat 1 k ++ t) (bproj (repeat 1 k ++ t) idx) = offset t (bproj t idx).
Proof.
  induction k as [|k IH]; intros L; [reflexivity|]. cbn [repeat app]. rewrite bproj_one by (rewrite app_length, repeat_length; lia). cbn [offset]. rewrite IH by lia. lia.
Qed.
Lemma brev_prefix t : forall s, narrow t (firstn (length t) s) -> brev s t = Some s.
Proof.
  induction t as [|b t IH]; intros s H; [destruct s; reflexivity|]. destruct s as [|a s]; [inversion H|]. cbn [length firstn] in H. inversion H as [|? ? ? ? Hb Hr]; subst. cbn [brev]. rewrite (IH s Hr). unfold bdim.
  destruct (N.eqb_spec a b) as [->|Hab]; [reflexivity|]. destruct Hb as [->| ->]; [contradiction|]. destruct (N.eqb_spec a 1); [congruence|]. reflexivity.
Qed.
Lemma bshape_pad k t s : narrow (repeat 1 k ++ t) s -> bshape s t = Some s.
Proof.
  intros H. unfold bshape. rewrite brev_prefix; [cbn; rewrite rev_involutive; reflexivity|]. rewrite rev_length.
  assert (E : exists s1 s2, s = s1 ++ s2 /\ narrow t s2) by (apply Forall2_app_inv_l in H; destruct H as (s1 & s2 & _ & H & ->); exists s1, s2; auto).
  destruct E as (s1 & s2 & -> & H2). rewrite rev_app_distr, firstn_app. rewrite rev_length, <- (Forall2_length H2), Nat.sub_diag. cbn [firstn]. rewrite app_nil_r, firstn_all2 by (rewrite rev_length, (Forall2_length H2); lia). apply Forall2_rev. exact H2.
Qed.

Section PRelu.
  Definition slope_fn (x a : R) : R := if Rle_dec 0 x then x else (x * a)%R.
  Lemma prelu_core k X S : twf X -> twf S -> narrow (repeat 1 k ++ tshape S) (tshape X) ->
    exists Y u, b_reshape (repeat 1 k ++ tshape S) (mkT [prodN (tshape S)] (tdata S)) = Some u /\ bzip slope_fn X u = Some Y /\ onnx_prelu X S = Some Y.
  Proof.
    intros WX WS H. set (sh := repeat 1 k ++ tshape S) in *. pose proof (shows_elem 0%R X WX) as HX.
    assert (P : prodN sh = prodN (tshape S)) by (unfold sh; clear; induction k as [|k IH]; [reflexivity|]; cbn [repeat app prodN]; rewrite IH; lia).
    set (u := mkT sh (tdata S)). assert (Wu : twf u) by (unfold twf in *; cbn [u tdata tshape]; rewrite WS, P; reflexivity).
    pose proof (shows_elem 0%R u Wu) as Hu. destruct (shows_zip slope_fn X u _ _ _ _ HX Hu H) as (Y & EY & SY). exists Y, u. split; [|split].
    - unfold b_reshape, reshape_flat. cbn [tdata]. unfold twf in WS. rewrite WS, P. replace (N.of_nat (N.to_nat (prodN (tshape S))) =? prodN (tshape S)) with true by lia. reflexivity.
    - exact EY.
    - unfold onnx_prelu. rewrite (bshape_pad k _ _ H). destruct (list_eq_dec N.eq_dec (tshape X) (tshape X)) as [_|C]; [|contradiction C; reflexivity].
      eapply tab_is; [exact SY|]. intros idx V. cbv beta zeta. f_equal.
      assert (E : elem 0%R u (bproj (tshape u) idx) = elem 0%R S (bproj (tshape S) idx)).
      { unfold elem, get. cbn [u tdata tshape]. unfold sh. rewrite bproj_pad; [reflexivity|]. pose proof (Forall2_length V). pose proof (Forall2_length H) as L. unfold sh in L. rewrite app_length, repeat_length in L. lia. }
      rewrite E. unfold slope_fn. destruct (Rle_dec 0 (elem 0%R X idx)), (Rlt_dec (elem 0%R X idx) 0); lra.
  Qed.
End PRelu.
