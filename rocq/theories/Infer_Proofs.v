From Verif Require Import IR_Model IR_Proofs Shapes_Spec Infer_Model Infer_Spec.
From Coq Require Import ZifyBool ZifyNat ZifyN.

(* ------------------------------------------------------------------ *)
(** * Merging *)

Lemma merge_dims_length : forall a b, length (fst (merge_dims a b)) = length a.
Proof.
  induction a as [|x a IH]; intros [|y b]; cbn; try reflexivity.
  specialize (IH b). destruct (merge_dims a b) as [r c]. cbn in *.
  destruct x, y; cbn; lia.
Qed.

Lemma merge_dims_nth : forall a b i, length a = length b ->
  nth_error (fst (merge_dims a b)) i =
  match nth_error a i, nth_error b i with
  | Some None, Some y => Some y
  | x, _ => x
  end.
Proof.
  induction a as [|x a IH]; intros [|y b] i Hl; cbn in *; try discriminate.
  - destruct i; reflexivity.
  - specialize (IH b). destruct (merge_dims a b) as [r c]. cbn in IH.
    destruct i as [|i].
    + destruct x, y; reflexivity.
    + specialize (IH i ltac:(lia)). destruct x, y; cbn; exact IH.
Qed.

Lemma merge_dims_flag : forall a b, length a = length b -> (snd (merge_dims a b) = true <-> fst (merge_dims a b) <> a).
Proof.
  induction a as [|x a IH]; intros [|y b] Hl; cbn in *; try discriminate; try (split; [discriminate|congruence]).
  specialize (IH b ltac:(lia)). destruct (merge_dims a b) as [r c]. cbn in *.
  destruct x as [x|], y as [y|]; cbn; rewrite ?IH; (split; [intros H E; try discriminate; injection E as E; tauto|intros H; try reflexivity]);
    intros E; apply H; congruence.
Qed.

Lemma merge_dims_fits : forall a b s, fits_dims a s -> fits_dims b s -> fits_dims (fst (merge_dims a b)) s.
Proof.
  intros a b s Ha. revert b. induction Ha as [|x d a s Hx Ha IH]; intros b Hb; cbn.
  - constructor.
  - inversion Hb as [|y d' b' s' Hy Hb']; subst. specialize (IH b' Hb'). cbn.
    destruct (merge_dims a b') as [r c]. cbn in *.
    destruct x, y; cbn; constructor; auto.
Qed.

Lemma merge_dims_again : forall a b, length a = length b ->
  merge_dims (fst (merge_dims a b)) b = (fst (merge_dims a b), false).
Proof.
  induction a as [|x a IH]; intros [|y b] Hl; cbn in *; try discriminate; [reflexivity|].
  specialize (IH b ltac:(lia)). destruct (merge_dims a b) as [r c]. cbn in *.
  destruct x, y; cbn; rewrite IH; reflexivity.
Qed.

Lemma merge_known self other l i d : tt_shape self = Some l -> nth_error l i = Some (Some d) ->
  exists l', tt_shape (fst (merge_tt self other)) = Some l' /\ nth_error l' i = Some (Some d).
Proof.
  intros Hs Hi. unfold merge_tt. destruct (negb _); [exists l; split; [exact Hs|exact Hi]|]. rewrite Hs.
  destruct (tt_shape other) as [os|]; [|exists l; split; [exact Hs|exact Hi]].
  destruct (Nat.eqb_spec (length l) (length os)) as [Hl|]; [|exists l; split; [exact Hs|exact Hi]].
  pose proof (merge_dims_nth l os i Hl) as Hn. destruct (merge_dims l os) as [r c]. cbn in *.
  exists r. split; [reflexivity|]. rewrite Hn, Hi. reflexivity.
Qed.

Lemma merge_source self other l' i d :
  tt_shape (fst (merge_tt self other)) = Some l' -> nth_error l' i = Some (Some d) ->
  (exists l, tt_shape self = Some l /\ nth_error l i = Some (Some d)) \/
  (exists l, tt_shape other = Some l /\ nth_error l i = Some (Some d)).
Proof.
  unfold merge_tt. intros Hs Hi. destruct (negb _); [left; exists l'; split; [exact Hs|exact Hi]|].
  destruct (tt_shape self) as [ss|] eqn:Es, (tt_shape other) as [os|] eqn:Eo.
  - destruct (Nat.eqb_spec (length ss) (length os)) as [Hl|].
    + pose proof (merge_dims_nth ss os i Hl) as Hn. destruct (merge_dims ss os) as [r c]. cbn in *.
      injection Hs as <-. rewrite Hn in Hi.
      destruct (nth_error ss i) as [[x|]|] eqn:Ex; [left; exists ss; split; [reflexivity|congruence]| |discriminate].
      destruct (nth_error os i) as [y|] eqn:Ey; [|discriminate]. right. exists os. split; [reflexivity|congruence].
    + left. cbn in Hs. exists l'. split; congruence.
  - left. cbn in Hs. exists l'. split; congruence.
  - destruct (N.eqb_spec (N.of_nat (length os)) (tt_rank self)).
    + right. cbn in Hs. exists l'. split; congruence.
    + cbn in Hs. congruence.
  - cbn in Hs. congruence.
Qed.

Lemma merge_rank self other : tt_rank (fst (merge_tt self other)) = tt_rank self /\
  tt_dtype (fst (merge_tt self other)) = tt_dtype self.
Proof.
  unfold merge_tt. destruct (negb _); [split; reflexivity|].
  destruct (tt_shape self) as [ss|], (tt_shape other) as [os|]; try (split; reflexivity).
  - destruct (Nat.eqb _ _); [destruct (merge_dims ss os)|]; split; reflexivity.
  - destruct (N.eqb _ _); split; reflexivity.
Qed.

Lemma merge_flag self other : snd (merge_tt self other) = true <-> fst (merge_tt self other) <> self.
Proof.
  assert (Hno : (false = true <-> self <> self)) by (split; [discriminate|congruence]).
  unfold merge_tt. destruct (negb _); [exact Hno|].
  destruct (tt_shape self) as [ss|] eqn:Es, (tt_shape other) as [os|] eqn:Eo; try exact Hno.
  - destruct (Nat.eqb_spec (length ss) (length os)) as [Hl|]; [|exact Hno].
    pose proof (merge_dims_flag ss os Hl) as Hf. destruct (merge_dims ss os) as [r c]. cbn in *.
    rewrite Hf. destruct self as [d k s]; cbn in *. subst s. split; intros H E; apply H; congruence.
  - destruct (N.eqb _ _); [|exact Hno]. cbn. split; [intros _ E|reflexivity].
    rewrite <- E in Es. cbn in Es. discriminate.
Qed.

Lemma merge_again self other : merge_tt (fst (merge_tt self other)) other = (fst (merge_tt self other), false).
Proof.
  unfold merge_tt at 2 3. destruct (N.eqb_spec (tt_rank self) (tt_rank other)) as [Hr|Hr]; cbn [negb fst].
  - destruct (tt_shape self) as [ss|] eqn:Es, (tt_shape other) as [os|] eqn:Eo; cbn [fst].
    + destruct (Nat.eqb_spec (length ss) (length os)) as [Hl|Hl].
      * pose proof (merge_dims_again ss os Hl) as Ha. pose proof (merge_dims_length ss os) as Hlen.
        destruct (merge_dims ss os) as [r c]. cbn [fst] in *.
        unfold merge_tt. cbn [tt_rank tt_shape tt_dtype]. rewrite Hr, N.eqb_refl, Eo. cbn [negb].
        assert (E : Nat.eqb (length r) (length os) = true) by (apply Nat.eqb_eq; lia). rewrite E, Ha. reflexivity.
      * cbn [fst]. unfold merge_tt. rewrite Hr, N.eqb_refl, Es, Eo. cbn [negb].
        assert (E : Nat.eqb (length ss) (length os) = false) by (apply Nat.eqb_neq; exact Hl). rewrite E. reflexivity.
    + unfold merge_tt. rewrite Hr, N.eqb_refl, Es, Eo. reflexivity.
    + destruct (N.eqb_spec (N.of_nat (length os)) (tt_rank self)) as [Hl|Hl]; cbn [fst].
      * unfold merge_tt. cbn [tt_rank tt_shape tt_dtype]. rewrite Hr, N.eqb_refl, Eo, Nat.eqb_refl. cbn [negb].
        assert (Hid : forall l, merge_dims l l = (l, false)).
        { induction l as [|x l IH]; cbn; [reflexivity|]. rewrite IH. destruct x; reflexivity. }
        rewrite Hid. reflexivity.
      * unfold merge_tt. rewrite Hr, N.eqb_refl, Es, Eo. cbn [negb].
        rewrite <- Hr. assert (E : N.eqb (N.of_nat (length os)) (tt_rank self) = false) by (apply N.eqb_neq; exact Hl).
        rewrite E. reflexivity.
    + unfold merge_tt. rewrite Hr, N.eqb_refl, Es, Eo. reflexivity.
  - unfold merge_tt. assert (E : N.eqb (tt_rank self) (tt_rank other) = false) by (apply N.eqb_neq; exact Hr).
    rewrite E. reflexivity.
Qed.

Lemma merge_fits self other s : fits_tt self s -> fits_tt other s -> fits_tt (fst (merge_tt self other)) s.
Proof.
  intros [Hr1 Hs1] [Hr2 Hs2]. split; [rewrite (proj1 (merge_rank self other)); exact Hr1|].
  intros l. unfold merge_tt. destruct (negb _); [apply Hs1|].
  destruct (tt_shape self) as [ss|] eqn:Es, (tt_shape other) as [os|] eqn:Eo; try (cbn; rewrite ?Es; auto; fail).
  - destruct (Nat.eqb _ _).
    + pose proof (merge_dims_fits ss os s (Hs1 _ eq_refl) (Hs2 _ eq_refl)) as Hm.
      destruct (merge_dims ss os) as [r c]. cbn in *. intros E. injection E as <-. exact Hm.
    + cbn. rewrite Es. auto.
  - destruct (N.eqb _ _); cbn.
    + intros E. injection E as <-. apply Hs2. reflexivity.
    + rewrite Es. discriminate.
Qed.

(* ------------------------------------------------------------------ *)
(** * Broadcasting *)

Lemma fold_max_acc (f : argty -> N) : forall l a,
  fold_left (fun acc ty => N.max acc (f ty)) l a = N.max a (fold_left (fun acc ty => N.max acc (f ty)) l 0%N).
Proof.
  induction l as [|x l IH]; intros a; cbn [fold_left]; [lia|].
  rewrite (IH (N.max a (f x))), (IH (N.max 0 (f x))). lia.
Qed.

Definition brank (ty : argty) : N :=
  match ty with TensorT t => tt_rank t | ScalarTensor _ | ShapeT _ => 1 | ScalarNative _ => 0 end.

Lemma compute_rank_max tys : compute_broadcast_rank tys = fold_left (fun acc ty => N.max acc (brank ty)) tys 0%N.
Proof.
  unfold compute_broadcast_rank. generalize 0%N. induction tys as [|ty l IH]; intros a; cbn [fold_left]; [reflexivity|].
  rewrite IH. f_equal. destruct ty; cbn [brank]; lia.
Qed.

Lemma compute_rank_cons ty l : compute_broadcast_rank (ty :: l) = N.max (brank ty) (compute_broadcast_rank l).
Proof. rewrite !compute_rank_max. cbn [fold_left]. rewrite fold_max_acc. lia. Qed.

Lemma compute_rank_ge tys ty : In ty tys -> (brank ty <= compute_broadcast_rank tys)%N.
Proof.
  induction tys as [|x l IH]; [intros []|]. rewrite compute_rank_cons. intros [->|H]; [lia|]. specialize (IH H). lia.
Qed.

Lemma compute_rank_attained tys : compute_broadcast_rank tys = 0%N \/ exists ty, In ty tys /\ brank ty = compute_broadcast_rank tys.
Proof.
  induction tys as [|x l IH]; [left; reflexivity|]. rewrite compute_rank_cons.
  destruct (N.max_spec (brank x) (compute_broadcast_rank l)) as [[H E]|[H E]]; rewrite E.
  - destruct IH as [IH|[ty [Hin Hb]]]; [lia|]. right. exists ty. split; [right; exact Hin|exact Hb].
  - destruct (N.eq_dec (brank x) 0) as [E0|E0]; [left; exact E0|]. right. exists x. split; [left; reflexivity|reflexivity].
Qed.

Definition argrank (ty : argty) : N :=
  match ty with TensorT t => tt_rank t | ShapeT _ => 1 | ScalarTensor _ | ScalarNative _ => 0 end.

Lemma fits_rank ty s : fits ty s -> N.of_nat (length s) = argrank ty.
Proof. destruct ty; cbn; [intros ->; reflexivity|intros ->; reflexivity|intros ->; reflexivity|intros [H _]; exact H]. Qed.

Lemma Forall2_in_r {A B} (R : A -> B -> Prop) l l' y : Forall2 R l l' -> In y l' -> exists x, In x l /\ R x y.
Proof. induction 1 as [|a b l l' H F IH]; [intros []|]. intros [->|Hin]; [exists a; auto with datatypes|]. destruct (IH Hin) as [x [H1 H2]]. exists x; auto with datatypes. Qed.
Lemma Forall2_in_left {A B} (R : A -> B -> Prop) l l' x : Forall2 R l l' -> In x l -> exists y, In y l' /\ R x y.
Proof. induction 1 as [|a b l l' H F IH]; [intros []|]. intros [->|Hin]; [exists b; auto with datatypes|]. destruct (IH Hin) as [y [H1 H2]]. exists y; auto with datatypes. Qed.

(** The rank of the result. *)
Lemma broadcast_rank_sound tys od ss out ty :
  Forall (fun ty => forall t, ty = TensorT t -> (1 <= tt_rank t)%N) tys ->
  Forall2 fits tys ss -> bcast_of ss out ->
  broadcast_output_type tys od = Some ty -> argrank ty = N.of_nat (length out).
Proof.
  intros Hpos Hf [B1 [B2 _]] H. rewrite Forall_forall in Hpos.
  assert (Hup : forall ty, In ty tys -> (argrank ty <= N.of_nat (length out))%N).
  { intros ty0 Hin. destruct (Forall2_in_left _ _ _ _ Hf Hin) as [s [Hs Hfs]].
    rewrite <- (fits_rank _ _ Hfs). specialize (B1 s Hs). lia. }
  assert (Hat : length out = 0%nat \/ exists ty, In ty tys /\ argrank ty = N.of_nat (length out)).
  { destruct B2 as [->|[s [Hs Hl]]]; [left; reflexivity|]. right.
    destruct (Forall2_in_r _ _ _ _ Hf Hs) as [ty0 [Hin Hfs]]. exists ty0. split; [exact Hin|].
    rewrite <- (fits_rank _ _ Hfs). lia. }
  assert (Hten : existsb is_tensor_ty tys = true <-> exists t, In (TensorT t) tys).
  { rewrite existsb_exists. split.
    - intros [x [Hin Hx]]. destruct x; try discriminate. eexists; exact Hin.
    - intros [t Hin]. exists (TensorT t). split; [exact Hin|reflexivity]. }
  unfold broadcast_output_type in H.
  destruct (existsb is_tensor_ty tys) eqn:Et.
  - (* a real tensor *)
    rewrite andb_false_r in H.
    destruct (broadcast_dtype tys od) as [d|]; [|discriminate]. injection H as <-.
    destruct (proj1 Hten eq_refl) as [t Ht].
    assert (Hr1 : (1 <= tt_rank t)%N) by (eapply Hpos; [exact Ht|reflexivity]).
    assert (Hcr : compute_broadcast_rank tys = N.of_nat (length out)).
    { apply N.le_antisymm.
      - destruct (compute_rank_attained tys) as [->|[ty0 [Hin Hb]]]; [lia|]. rewrite <- Hb.
        pose proof (Hup ty0 Hin) as Hu0. pose proof (Hup _ Ht) as Hut. cbn [argrank] in Hut.
        destruct ty0; cbn [argrank brank] in *; lia.
      - destruct Hat as [->|[ty0 [Hin Hb]]]; [lia|]. rewrite <- Hb.
        pose proof (compute_rank_ge tys ty0 Hin). destruct ty0; cbn [argrank brank] in *; lia. }
    rewrite Hcr. destruct (N.eqb_spec (N.of_nat (length out)) 0) as [E|E].
    + exfalso. pose proof (Hup _ Ht) as Hu. cbn in Hu. lia.
    + reflexivity.
  - (* no real tensor *)
    destruct (existsb is_shape_ty tys) eqn:Es.
    + cbn in H. destruct (filter_map _ tys) as [|n r]; [discriminate|]. injection H as <-. cbn.
      apply existsb_exists in Es. destruct Es as [x [Hin Hx]]. destruct x; try discriminate.
      specialize (Hup _ Hin). cbn in Hup.
      destruct Hat as [E|[ty0 [Hin0 Hb]]]; [lia|]. destruct ty0; cbn in Hb; try lia.
      discriminate (proj2 Hten (ex_intro (fun t => In (TensorT t) tys) _ Hin0)).
    + cbn in H. destruct (broadcast_dtype tys od) as [d|]; [|discriminate]. injection H as <-.
      assert (Hall : forall ty0, In ty0 tys -> argrank ty0 = 0%N /\ (brank ty0 <= 1)%N).
      { intros ty0 Hin. destruct ty0; cbn; try (split; [reflexivity|lia]).
        - exfalso. assert (existsb is_shape_ty tys = true) by (apply existsb_exists; eexists; split; [exact Hin|reflexivity]). congruence.
        - discriminate (proj2 Hten (ex_intro (fun t => In (TensorT t) tys) _ Hin)). }
      assert (Hlo : length out = 0%nat).
      { destruct Hat as [E|[ty0 [Hin Hb]]]; [exact E|]. rewrite (proj1 (Hall _ Hin)) in Hb. lia. }
      assert (Hcr : (compute_broadcast_rank tys <= 1)%N).
      { destruct (compute_rank_attained tys) as [->|[ty0 [Hin Hb]]]; [lia|]. rewrite <- Hb. apply Hall. exact Hin. }
      rewrite Hlo. destruct (N.eqb_spec (compute_broadcast_rank tys) 0); [reflexivity|].
      assert (E1 : N.eqb (compute_broadcast_rank tys) 1 = true) by (apply N.eqb_eq; lia). cbn [negb andb]. rewrite E1. reflexivity.
Qed.

(** ** Dimensions *)

Lemma fits_dims_intro : forall l out, length l = length out ->
  (forall p c, nth_error l p = Some (Some c) -> nth p out 0%N = c) -> fits_dims l out.
Proof.
  induction l as [|x l IH]; intros [|d out] Hl H; cbn in Hl; try discriminate; constructor.
  - destruct x as [c|]; [right|left; reflexivity]. pose proof (H 0%nat c eq_refl) as H0. cbn in H0. congruence.
  - apply IH; [lia|]. intros p c Hp. exact (H (S p) c Hp).
Qed.
Lemma fits_dims_elim l out : fits_dims l out -> length l = length out /\
  (forall p c, nth_error l p = Some (Some c) -> nth p out 0%N = c).
Proof.
  induction 1 as [|x d l out Hx F [IH1 IH2]]; [split; [reflexivity|intros [|p] c H; discriminate]|].
  split; [cbn; lia|]. intros [|p] c H; cbn in *.
  - injection H as ->. destruct Hx as [Hx|Hx]; congruence.
  - apply IH2. exact H.
Qed.

Lemma dim_determined ss out k c : bcast_of ss out -> (k < length out)%nat ->
  (forall s, In s ss -> nth k (rev s) 1%N = 1%N \/ nth k (rev s) 1%N = c) ->
  (c = 1%N \/ exists s, In s ss /\ nth k (rev s) 1%N = c) ->
  nth k (rev out) 0%N = c.
Proof.
  intros [_ [_ B]] Hk Hall Hat. destruct (B k Hk) as [B1 B2].
  destruct (N.eq_dec c 1) as [->|Hc].
  - destruct B2 as [H|[s [Hs H]]]; [exact H|]. rewrite <- H. destruct (Hall s Hs); assumption.
  - destruct Hat as [->|[s [Hs H]]]; [congruence|]. destruct (B1 s Hs) as [H1|H1]; congruence.
Qed.

Lemma nth_rev_pos {A} (l : list A) p d : (p < length l)%nat -> nth (length l - 1 - p) (rev l) d = nth p l d.
Proof.
  intros Hp. rewrite rev_nth by lia. f_equal. lia.
Qed.

Lemma nth_indep_rev (s : list N) k : (k < length s)%nat -> nth k (rev s) 1%N = nth k (rev s) 0%N.
Proof. intros H. apply nth_indep. rewrite rev_length. exact H. Qed.

(** From positions counted from the right to [fits_dims]. *)
Lemma fits_dims_right l ss out : length l = length out -> bcast_of ss out ->
  (forall p c, nth_error l p = Some (Some c) ->
     let k := (length out - 1 - p)%nat in
     (forall s, In s ss -> nth k (rev s) 1%N = 1%N \/ nth k (rev s) 1%N = c) /\
     (c = 1%N \/ exists s, In s ss /\ nth k (rev s) 1%N = c)) ->
  fits_dims l out.
Proof.
  intros Hl Hb H. apply fits_dims_intro; [exact Hl|]. intros p c Hp.
  assert (Hpl : (p < length out)%nat) by (rewrite <- Hl; apply nth_error_Some; congruence).
  destruct (H p c Hp) as [H1 H2]. rewrite <- (nth_rev_pos out p) by exact Hpl.
  apply (dim_determined ss out _ c Hb); [lia|exact H1|exact H2].
Qed.

(** The shape of a tensor operand at a position of the result. *)
Lemma operand_pos (d : list (option N)) (s : list N) (m p : nat) c : fits_dims d s -> (length d <= m)%nat ->
  (m - length d <= p < m)%nat -> nth_error d (p - (m - length d)) = Some (Some c) ->
  nth (m - 1 - p) (rev s) 1%N = c.
Proof.
  intros Hf Hm Hp Hn. destruct (fits_dims_elim _ _ Hf) as [Hl Hd]. specialize (Hd _ _ Hn).
  rewrite rev_nth by lia. rewrite <- Hd.
  replace (length s - S (m - 1 - p))%nat with (p - (m - length d))%nat by lia.
  apply nth_indep. lia.
Qed.
Lemma operand_missing (s : list N) (m p : nat) : (p < m - length s)%nat -> nth (m - 1 - p) (rev s) 1%N = 1%N.
Proof. intros H. apply nth_overflow. rewrite rev_length. lia. Qed.

Lemma set_nth_length {A} (l : list A) i v : length (set_nth l i v) = length l.
Proof. revert i. induction l as [|x l IH]; intros [|i]; cbn; auto. Qed.
Lemma set_nth_nth {A} (l : list A) i v j : nth_error (set_nth l i v) j =
  if Nat.eqb i j then match nth_error l j with Some _ => Some v | None => None end else nth_error l j.
Proof.
  revert i j. induction l as [|x l IH]; intros [|i] [|j]; cbn; try reflexivity.
  - destruct (Nat.eqb i j); reflexivity.
  - apply IH.
Qed.

(** Position [p] of an accumulated result, against one operand seen so far. *)
Definition pos_ok (m : nat) (result : list (option N)) (d : list (option N)) (p : nat) : Prop :=
  forall c, nth_error result p = Some (Some c) -> (m - length d <= p)%nat ->
    exists x, nth_error d (p - (m - length d)) = Some (Some x) /\ (x = 1%N \/ x = c).

Lemma broadcast_into_spec : forall shape result idx r,
  (idx + length shape <= length result)%nat ->
  broadcast_into result idx shape = Some r ->
  length r = length result /\
  (forall p, (p < idx)%nat \/ (idx + length shape <= p)%nat -> nth_error r p = nth_error result p) /\
  (forall i dim, nth_error shape i = Some dim ->
     match nth_error r (idx + i) with
     | Some (Some c) => exists cur d, nth_error result (idx + i) = Some (Some cur) /\ dim = Some d /\
                          ((cur = 1%N /\ c = d) \/ (c = cur /\ (d = 1%N \/ d = cur)))
     | _ => True
     end).
Proof.
  induction shape as [|dim rest IH]; intros result idx r Hlen H; cbn [broadcast_into length] in *.
  - injection H as <-. split; [reflexivity|]. split; [reflexivity|]. intros [|i] dim Hd; discriminate.
  - assert (Hn : exists cur, nth_error result idx = Some cur).
    { destruct (nth_error result idx) eqn:E; [eexists; reflexivity|]. apply nth_error_None in E. lia. }
    destruct Hn as [cur Hcur].
    assert (Hnth : nth idx result None = cur) by (erewrite nth_error_nth; [reflexivity|exact Hcur]).
    rewrite Hnth in H.
    assert (Hgo : forall v, broadcast_into (set_nth result idx v) (S idx) rest = Some r ->
      (match v with Some c => exists cu d, cur = Some cu /\ dim = Some d /\ ((cu = 1%N /\ c = d) \/ (c = cu /\ (d = 1%N \/ d = cu))) | None => True end) ->
      length r = length result /\
      (forall p, (p < idx)%nat \/ (idx + S (length rest) <= p)%nat -> nth_error r p = nth_error result p) /\
      (forall i dm, nth_error (dim :: rest) i = Some dm ->
         match nth_error r (idx + i) with
         | Some (Some c) => exists cur d, nth_error result (idx + i) = Some (Some cur) /\ dm = Some d /\
                              ((cur = 1%N /\ c = d) \/ (c = cur /\ (d = 1%N \/ d = cur)))
         | _ => True
         end)).
    { intros v Hb Hv. destruct (IH (set_nth result idx v) (S idx) r) as [I1 [I2 I3]].
      - rewrite set_nth_length. lia.
      - exact Hb.
      - rewrite set_nth_length in I1. split; [exact I1|]. split.
        + intros p Hp. rewrite I2 by lia. rewrite set_nth_nth.
          destruct (Nat.eqb_spec idx p); [lia|reflexivity].
        + intros [|i] dm Hdm; cbn in Hdm.
          * injection Hdm as <-. rewrite Nat.add_0_r, I2 by lia. rewrite set_nth_nth, Nat.eqb_refl, Hcur.
            destruct v as [c|]; [|exact I]. destruct Hv as [cu [d [E1 [E2 E3]]]]. exists cu, d.
            split; [congruence|]. split; assumption.
          * specialize (I3 i dm Hdm). replace (idx + S i)%nat with (S idx + i)%nat by lia.
            destruct (nth_error r (S idx + i)) as [[c|]|]; [|exact I|exact I].
            destruct I3 as [cu [d [E1 R]]]. exists cu, d. split; [|exact R].
            rewrite set_nth_nth in E1. destruct (Nat.eqb_spec idx (S idx + i)); [lia|exact E1]. }
    assert (Hself : set_nth result idx cur = result).
    { clear - Hcur. revert idx Hcur. induction result as [|x l IHl]; intros [|idx] Hc; cbn in *; try discriminate.
      - congruence.
      - f_equal. apply IHl. exact Hc. }
    destruct cur as [cu|], dim as [d|]; cbv beta iota in H; [|exact (Hgo None H I)|exact (Hgo None H I)|exact (Hgo None H I)].
    destruct (N.eqb_spec cu 1) as [E1|Hne].
    + apply (Hgo (Some d)); [exact H|]. exists cu, d. auto.
    + destruct (negb (N.eqb d 1) && negb (N.eqb d cu))%bool eqn:E; [discriminate|].
      apply (Hgo (Some cu)); [rewrite Hself; exact H|]. exists cu, d. split; [reflexivity|]. split; [reflexivity|].
      right. split; [reflexivity|]. lia.
Qed.

Lemma broadcast_all_spec m : forall shapes result r done,
  length result = m -> (forall d, In d shapes -> (length d <= m)%nat) ->
  (forall d p, In d done -> pos_ok m result d p) ->
  (forall p c, nth_error result p = Some (Some c) -> c = 1%N \/
     exists d, In d done /\ (m - length d <= p)%nat /\ nth_error d (p - (m - length d)) = Some (Some c)) ->
  (forall d, In d done -> (length d <= m)%nat) ->
  broadcast_all m result shapes = Some r ->
  length r = m /\
  (forall d p, In d (done ++ shapes) -> pos_ok m r d p) /\
  (forall p c, nth_error r p = Some (Some c) -> c = 1%N \/
     exists d, In d (done ++ shapes) /\ (m - length d <= p)%nat /\ nth_error d (p - (m - length d)) = Some (Some c)).
Proof.
  induction shapes as [|s rest IH]; intros result r done Hlen Hsh Hok Hat Hdl H; cbn in H.
  - injection H as <-. rewrite app_nil_r. auto.
  - destruct (broadcast_into result (m - length s) s) as [r1|] eqn:E; [|discriminate].
    assert (Hs : (length s <= m)%nat) by (apply Hsh; left; reflexivity).
    destruct (broadcast_into_spec s result (m - length s) r1) as [L [O W]]; [lia|exact E|].
    assert (Hback : forall p c, nth_error r1 p = Some (Some c) ->
      ((m - length s <= p)%nat -> exists d, nth_error s (p - (m - length s)) = Some (Some d) /\ (d = 1%N \/ d = c)) /\
      (exists c0, nth_error result p = Some (Some c0) /\ (c0 = 1%N \/ c0 = c)) /\
      (nth_error result p = Some (Some c) \/
       ((m - length s <= p)%nat /\ nth_error s (p - (m - length s)) = Some (Some c)))).
    { intros p c Hp. destruct (Nat.lt_ge_cases p (m - length s)) as [Hlt|Hge].
      - rewrite O in Hp by lia. split; [lia|]. split; [exists c; auto|left; exact Hp].
      - assert (Hpm : (p < m)%nat) by (rewrite <- Hlen, <- L; apply nth_error_Some; congruence).
        destruct (nth_error s (p - (m - length s))) as [dim|] eqn:Ed; [|apply nth_error_None in Ed; lia].
        specialize (W _ _ Ed). replace (m - length s + (p - (m - length s)))%nat with p in W by lia.
        rewrite Hp in W. destruct W as [cu [d [W1 [-> W2]]]].
        split; [|split].
        + intros _. exists d. split; [reflexivity|]. destruct W2 as [[_ W2]|[W2 [W3|W3]]]; subst; auto.
        + exists cu. split; [exact W1|]. destruct W2 as [[-> _]|[-> _]]; auto.
        + destruct W2 as [[-> ->]|[-> _]]; [right; split; [exact Hge|reflexivity]|left; exact W1]. }
    destruct (IH r1 r (done ++ [s])) as [I1 [I2 I3]].
    + lia.
    + intros d Hd. apply Hsh. right; exact Hd.
    + intros d p Hd c Hc Hpd. apply in_app_iff in Hd. destruct Hd as [Hd|[<-|[]]].
      * destruct (Hback p c Hc) as [_ [[c0 [Hc0 Hcc]] Hsrc]].
        destruct (Hok d p Hd c0 Hc0 Hpd) as [x [Hx Hxc]]. exists x. split; [exact Hx|].
        destruct Hcc as [ -> | -> ]; destruct Hxc as [ -> | -> ]; auto.
      * destruct (Hback p c Hc) as [Hb _]. exact (Hb Hpd).
    + intros p c Hc. destruct (Hback p c Hc) as [_ [_ [Hr|[Hr1 Hr2]]]].
      * destruct (Hat p c Hr) as [->|[d [Hd R]]]; [left; reflexivity|]. right. exists d. split; [apply in_app_iff; left; exact Hd|exact R].
      * right. exists s. split; [apply in_app_iff; right; left; reflexivity|]. split; assumption.
    + intros d Hd. apply in_app_iff in Hd. destruct Hd as [Hd|[<-|[]]]; [apply Hdl; exact Hd|exact Hs].
    + exact H.
    + rewrite <- app_assoc in I2, I3. cbn in I2, I3. auto.
Qed.

Lemma filter_map_In {A B} (f : A -> option B) l y : In y (filter_map f l) <-> exists x, In x l /\ f x = Some y.
Proof.
  induction l as [|a l IH]; cbn; [split; [tauto|intros [x [[] _]]]|].
  destruct (f a) as [z|] eqn:E; cbn; rewrite IH; split.
  - intros [->|[x [H1 H2]]]; [exists a; auto|exists x; auto].
  - intros [x [[->|H1] H2]]; [left; congruence|right; exists x; auto].
  - intros [x [H1 H2]]; exists x; auto.
  - intros [x [[->|H1] H2]]; [congruence|exists x; auto].
Qed.

Lemma dims_eqb_eq a b : dims_eqb a b = true <-> a = b.
Proof.
  revert b. induction a as [|x a IH]; intros [|y b]; cbn; try (split; [discriminate|discriminate]); [tauto|].
  rewrite andb_true_iff, IH. destruct x, y; cbn; try (split; [intros [? ?]; discriminate|discriminate]).
  - rewrite N.eqb_eq. split; [intros [-> ->]; reflexivity|intros E; injection E as -> ->; auto].
  - split; [intros [_ ->]; reflexivity|intros E; injection E as ->; auto].
Qed.

Lemma all_equal_spec l a : all_equal (a :: l) = true -> forall b, In b (a :: l) -> b = a.
Proof.
  revert a. induction l as [|c l IH]; intros a H b Hb.
  - destruct Hb as [<-|[]]; reflexivity.
  - cbn [all_equal] in H. apply andb_prop in H. destruct H as [H1 H2]. apply dims_eqb_eq in H1. subst c.
    destruct Hb as [<-|Hb]; [reflexivity|]. apply (IH a H2 b Hb).
Qed.

Lemma max_list_ge l x : In x l -> (x <= fold_left Nat.max l 0)%nat.
Proof.
  assert (G : forall l a, (a <= fold_left Nat.max l a)%nat /\ forall x, In x l -> (x <= fold_left Nat.max l a)%nat).
  { clear. induction l as [|y l IH]; intros a; cbn; [split; [lia|intros x []]|].
    destruct (IH (Nat.max a y)) as [I1 I2]. split; [lia|]. intros x [->|H]; [lia|apply I2; exact H]. }
  apply G.
Qed.
Lemma max_list_in l a : fold_left Nat.max l a = a \/ In (fold_left Nat.max l a) l.
Proof.
  revert a. induction l as [|y l IH]; intros a; cbn; [left; reflexivity|].
  destruct (IH (Nat.max a y)) as [E|E]; [|right; right; exact E].
  rewrite E. destruct (Nat.max_spec a y) as [[_ ->]|[_ ->]]; [right; left; reflexivity|left; reflexivity].
Qed.

(** Known dimensions of the result, when every tensor operand declares its
    dimensions and there is no shape-typed operand. *)
Lemma broadcast_static_sound tys ss out l :
  (forall ty, In ty tys -> match ty with
     | TensorT t => (1 <= tt_rank t)%N /\ tt_shape t <> None
     | ShapeT _ => False
     | _ => True end) ->
  Forall2 fits tys ss -> bcast_of ss out ->
  compute_broadcast_static_shape tys = Some l -> fits_dims l out.
Proof.
  intros Hty Hf Hb H.
  (* operands are rank 0 or tensors of declared dimensions *)
  assert (Hop : forall s, In s ss -> s = [] \/ exists d, In d (filter_map static_shape_of tys) /\ fits_dims d s).
  { intros s Hs. destruct (Forall2_in_r _ _ _ _ Hf Hs) as [ty [Hin Hfs]]. specialize (Hty ty Hin).
    destruct ty as [d0|d0|n0|t]; cbn in Hfs; auto; [contradiction|]. right.
    destruct Hty as [_ Hne]. destruct (tt_shape t) as [d|] eqn:Ed; [|congruence].
    exists d. split; [apply filter_map_In; exists (TensorT t); split; [exact Hin|exact Ed]|].
    destruct Hfs as [_ Hfs]. apply Hfs. exact Ed. }
  assert (Hdecl : forall d, In d (filter_map static_shape_of tys) -> exists s, In s ss /\ fits_dims d s).
  { intros d Hd. apply filter_map_In in Hd. destruct Hd as [ty [Hin Hd]].
    destruct ty as [d0|d0|n0|t]; try discriminate. cbn in Hd.
    destruct (Forall2_in_left _ _ _ _ Hf Hin) as [s [Hs Hfs]]. exists s. split; [exact Hs|].
    destruct Hfs as [_ Hfs]. apply Hfs. exact Hd. }
  (* the length of the result *)
  assert (Hlen : forall d0, In d0 (filter_map static_shape_of tys) ->
     (forall d, In d (filter_map static_shape_of tys) -> (length d <= length d0)%nat) -> length out = length d0).
  { intros d0 Hd0 Hmax. destruct Hb as [B1 [B2 _]].
    destruct (Hdecl d0 Hd0) as [s0 [Hs0 Hf0]]. pose proof (B1 s0 Hs0).
    pose proof (proj1 (fits_dims_elim _ _ Hf0)).
    destruct B2 as [->|[s [Hs Hl]]]; [cbn in *; lia|].
    destruct (Hop s Hs) as [->|[d [Hd Hfd]]]; [cbn in *; lia|].
    pose proof (proj1 (fits_dims_elim _ _ Hfd)). specialize (Hmax d Hd). lia. }
  (* when all declared shapes are [l] *)
  assert (Hsame : forall d0, In d0 (filter_map static_shape_of tys) ->
     (forall d, In d (filter_map static_shape_of tys) -> d = d0) -> fits_dims d0 out).
  { intros d0 Hd0 Hall. assert (Hl : length d0 = length out).
    { symmetry. apply Hlen; [exact Hd0|]. intros d Hd. rewrite (Hall d Hd). lia. }
    apply (fits_dims_right d0 ss out Hl Hb). intros p c Hp k. subst k.
    assert (Hpl : (p < length out)%nat) by (rewrite <- Hl; apply nth_error_Some; congruence).
    assert (Hv : forall s, fits_dims d0 s -> nth (length out - 1 - p) (rev s) 1%N = c).
    { intros s Hs. apply (operand_pos d0 s (length out) p c Hs); [lia|lia|].
      replace (p - (length out - length d0))%nat with p by lia. exact Hp. }
    split.
    - intros s Hs. destruct (Hop s Hs) as [->|[d [Hd Hfd]]].
      + left. apply nth_overflow. cbn. lia.
      + right. rewrite (Hall d Hd) in Hfd. apply Hv. exact Hfd.
    - destruct (Hdecl d0 Hd0) as [s0 [Hs0 Hf0]]. right. exists s0. split; [exact Hs0|]. apply Hv. exact Hf0. }
  unfold compute_broadcast_static_shape in H.
  destruct (filter_map static_shape_of tys) as [|d1 [|d2 ds]] eqn:Efm; [discriminate| |].
  - destruct (N.eqb _ _); [|discriminate]. injection H as <-.
    apply Hsame; [left; reflexivity|]. intros d [<-|[]]; reflexivity.
  - destruct (all_equal (d1 :: d2 :: ds)) eqn:Eeq.
    + injection H as <-. apply Hsame; [left; reflexivity|]. apply all_equal_spec. exact Eeq.
    + clear Hsame. set (shapes := d1 :: d2 :: ds) in *.
      set (m := fold_left Nat.max (map (@length (option N)) shapes) 0%nat) in *.
      assert (Hm : forall d, In d shapes -> (length d <= m)%nat).
      { intros d Hd. apply max_list_ge. apply in_map. exact Hd. }
      assert (Hmo : length out = m).
      { destruct (max_list_in (map (@length (option N)) shapes) 0) as [E|E].
        - fold m in E. assert (length d1 <= m)%nat by (apply Hm; left; reflexivity).
          rewrite (Hlen d1); [lia|left; reflexivity|]. intros d Hd. specialize (Hm d Hd). lia.
        - fold m in E. apply in_map_iff in E. destruct E as [d0 [E Hd0]].
          rewrite (Hlen d0); [exact E|exact Hd0|]. intros d Hd. specialize (Hm d Hd). lia. }
      destruct (broadcast_all_spec m shapes (repeat (Some 1%N) m) l []) as [L [P1 P2]].
      * apply repeat_length.
      * exact Hm.
      * intros d p [].
      * intros p c Hp. left. apply nth_error_In in Hp. apply repeat_spec in Hp. congruence.
      * intros d [].
      * exact H.
      * cbn [app] in P1, P2. apply (fits_dims_right l ss out); [lia|exact Hb|].
        intros p c Hp k. subst k. rewrite Hmo.
        assert (Hpm : (p < m)%nat) by (rewrite <- L; apply nth_error_Some; congruence).
        split.
        -- intros s Hs. destruct (Hop s Hs) as [->|[d [Hd Hfd]]].
           ++ left. apply nth_overflow. cbn. lia.
           ++ pose proof (proj1 (fits_dims_elim _ _ Hfd)) as Hld.
              destruct (Nat.lt_ge_cases p (m - length d)) as [Hlt|Hge].
              ** left. apply operand_missing. lia.
              ** destruct (P1 d p Hd c Hp Hge) as [x [Hx Hxc]].
                 rewrite (operand_pos d s m p x Hfd (Hm d Hd) (conj Hge Hpm) Hx). exact Hxc.
        -- destruct (P2 p c Hp) as [->|[d [Hd [Hge Hx]]]]; [left; reflexivity|]. right.
           destruct (Hdecl d Hd) as [s [Hs Hfd]]. exists s. split; [exact Hs|].
           apply (operand_pos d s m p c Hfd (Hm d Hd) (conj Hge Hpm) Hx).
Qed.

(** Known dimensions other than 1 are right even if some operands declare
    nothing, whenever the claimed shape has the length of the result. *)
Lemma static_attained tys l p c : compute_broadcast_static_shape tys = Some l -> nth_error l p = Some (Some c) ->
  c = 1%N \/ exists d, In d (filter_map static_shape_of tys) /\ (length d <= length l)%nat /\
    (length l - length d <= p)%nat /\ nth_error d (p - (length l - length d)) = Some (Some c).
Proof.
  unfold compute_broadcast_static_shape. intros H Hp.
  destruct (filter_map static_shape_of tys) as [|d1 [|d2 ds]]; [discriminate| |].
  - destruct (N.eqb _ _); [|discriminate]. injection H as <-. right. exists d1. split; [left; reflexivity|].
    split; [lia|]. split; [lia|]. replace (p - (length d1 - length d1))%nat with p by lia. exact Hp.
  - destruct (all_equal (d1 :: d2 :: ds)).
    + injection H as <-. right. exists d1. split; [left; reflexivity|].
      split; [lia|]. split; [lia|]. replace (p - (length d1 - length d1))%nat with p by lia. exact Hp.
    + set (shapes := d1 :: d2 :: ds) in *. set (m := fold_left Nat.max (map (@length (option N)) shapes) 0%nat) in *.
      assert (Hm : forall d, In d shapes -> (length d <= m)%nat).
      { intros d Hd. apply max_list_ge. apply in_map. exact Hd. }
      destruct (broadcast_all_spec m shapes (repeat (Some 1%N) m) l []) as [L [P1 P2]].
      * apply repeat_length.
      * exact Hm.
      * intros d q [].
      * intros q x Hq. left. apply nth_error_In in Hq. apply repeat_spec in Hq. congruence.
      * intros d [].
      * exact H.
      * cbn [app] in P2. rewrite L. destruct (P2 p c Hp) as [->|[d [Hd [Hge Hx]]]]; [left; reflexivity|].
        right. exists d. split; [exact Hd|]. split; [apply Hm; exact Hd|]. split; assumption.
Qed.

Lemma broadcast_nonunit_sound tys ss out l p c :
  Forall2 fits tys ss -> bcast_of ss out ->
  compute_broadcast_static_shape tys = Some l -> length l = length out ->
  nth_error l p = Some (Some c) -> c <> 1%N -> nth p out 0%N = c.
Proof.
  intros Hf Hb H Hl Hp Hc. destruct (static_attained tys l p c H Hp) as [->|[d [Hd [Hle [Hge Hx]]]]]; [congruence|].
  apply filter_map_In in Hd. destruct Hd as [ty [Hin Hd]]. destruct ty as [d0|d0|n0|t]; try discriminate. cbn in Hd.
  destruct (Forall2_in_left _ _ _ _ Hf Hin) as [s [Hs Hfs]]. destruct Hfs as [_ Hfs]. specialize (Hfs d Hd).
  assert (Hpl : (p < length l)%nat) by (apply nth_error_Some; congruence).
  pose proof (operand_pos d s (length l) p c Hfs Hle (conj Hge Hpl) Hx) as Hv. rewrite Hl in Hv, Hpl.
  rewrite <- (nth_rev_pos out p) by exact Hpl.
  destruct Hb as [_ [_ B]]. destruct (B (length out - 1 - p)%nat) as [B1 _]; [lia|].
  destruct (B1 s Hs) as [E|E]; congruence.
Qed.

Lemma broadcast_type_sound tys od ss out ty :
  (forall ty, In ty tys -> match ty with
     | TensorT t => (1 <= tt_rank t)%N /\ tt_shape t <> None
     | ShapeT _ => False
     | _ => True end) ->
  Forall2 fits tys ss -> bcast_of ss out ->
  broadcast_output_type tys od = Some ty -> fits ty out.
Proof.
  intros Hty Hf Hb H.
  assert (Hr : argrank ty = N.of_nat (length out)).
  { apply (broadcast_rank_sound tys od ss out ty); auto. apply Forall_forall. intros x Hx t ->. apply (Hty _ Hx). }
  unfold broadcast_output_type in H.
  assert (Hns : existsb is_shape_ty tys = false).
  { destruct (existsb is_shape_ty tys) eqn:E; [|reflexivity]. apply existsb_exists in E. destruct E as [x [Hx Ex]].
    specialize (Hty x Hx). destruct x; try discriminate. contradiction. }
  rewrite Hns in H. cbn [andb] in H. destruct (broadcast_dtype tys od) as [d|]; [|discriminate].
  assert (Hs : forall x : list N, N.of_nat (length x) = 0%N -> x = []) by (intros [|? ?] E; [reflexivity|cbn in E; lia]).
  destruct (N.eqb (compute_broadcast_rank tys) 0).
  - injection H as <-. cbn in *. apply Hs. congruence.
  - destruct (negb (existsb is_tensor_ty tys) && N.eqb (compute_broadcast_rank tys) 1)%bool; injection H as <-; cbn in *.
    + apply Hs. congruence.
    + split; [symmetry; exact Hr|]. intros l Hl. apply (broadcast_static_sound tys ss out l); assumption.
Qed.

(** ** Specification checks *)
Lemma applicable_spec {A} opset : forall (l : list (N * A)) best,
  match applicable opset l best with
  | None => best = None /\ forall w b, In (w, b) l -> (opset < w)%N
  | Some (v, a) =>
      (governs opset l v a /\ (forall w b, best = Some (w, b) -> (w <= v)%N)) \/
      (best = Some (v, a) /\ forall w b, In (w, b) l -> (w <= opset)%N -> (w < v)%N)
  end.
Proof.
  induction l as [|[w b] l IH]; intros best; cbn [applicable].
  - destruct best as [[v a]|]; [right; split; [reflexivity|intros ? ? []]|split; [reflexivity|intros ? ? []]].
  - assert (Hcons : forall v a, (w <= opset -> w <= v)%N -> governs opset l v a -> governs opset ((w, b) :: l) v a).
    { intros v a Hw [p [s [-> [G1 [G2 G3]]]]]. exists ((w, b) :: p), s. split; [reflexivity|]. split; [exact G1|].
      split; [|exact G3]. intros x y [E|Hin] Hx; [injection E as -> ->; auto|apply (G2 x y Hin Hx)]. }
    destruct (N.leb_spec w opset) as [Hle|Hgt].
    + destruct best as [[u c]|].
      * destruct (N.leb_spec u w) as [Huw|Hwu].
        -- specialize (IH (Some (w, b))). destruct (applicable opset l (Some (w, b))) as [[v a]|]; [|destruct IH; discriminate].
           left. destruct IH as [[G Gb]|[E Hl]].
           ++ pose proof (Gb w b eq_refl). split; [apply Hcons; [intros; assumption|exact G]|].
              intros x y E. injection E as <- <-. lia.
           ++ injection E as <- <-. split; [|intros x y E; injection E as <- <-; exact Huw].
              exists [], l. split; [reflexivity|]. split; [exact Hle|]. split; [intros ? ? []|exact Hl].
        -- specialize (IH (Some (u, c))). destruct (applicable opset l (Some (u, c))) as [[v a]|]; [|destruct IH; discriminate].
           destruct IH as [[G Gb]|[E Hl]].
           ++ left. pose proof (Gb u c eq_refl). split; [apply Hcons; [intros; lia|exact G]|exact Gb].
           ++ injection E as <- <-. right. split; [reflexivity|]. intros x y [E|Hin] Hx; [injection E as <- <-; exact Hwu|apply (Hl x y Hin Hx)].
      * specialize (IH (Some (w, b))). destruct (applicable opset l (Some (w, b))) as [[v a]|]; [|destruct IH; discriminate].
        left. split; [|discriminate]. destruct IH as [[G Gb]|[E Hl]].
        -- pose proof (Gb w b eq_refl). apply Hcons; [intros; assumption|exact G].
        -- injection E as <- <-. exists [], l. split; [reflexivity|]. split; [exact Hle|]. split; [intros ? ? []|exact Hl].
    + specialize (IH best). destruct (applicable opset l best) as [[v a]|].
      * destruct IH as [[G Gb]|[E Hl]].
        -- left. split; [apply Hcons; [intros; lia|exact G]|exact Gb].
        -- right. split; [exact E|]. intros x y [E'|Hin] Hx; [injection E' as <- <-; lia|apply (Hl x y Hin Hx)].
      * destruct IH as [E Hl]. split; [exact E|]. intros x y [E'|Hin]; [injection E' as <- <-; exact Hgt|apply (Hl x y Hin)].
Qed.

Lemma governs_fun {A} opset (l : list (N * A)) v a v' a' : governs opset l v a -> governs opset l v' a' -> v = v' /\ a = a'.
Proof.
  intros [p [s [-> [G1 [G2 G3]]]]] [p' [s' [E [H1 [H2 H3]]]]].
  assert (Hv : v = v').
  { assert (I1 : In (v, a) (p' ++ (v', a') :: s')) by (rewrite <- E; apply in_or_app; right; left; reflexivity).
    assert (I2 : In (v', a') (p ++ (v, a) :: s)) by (rewrite E; apply in_or_app; right; left; reflexivity).
    apply in_app_or in I1. apply in_app_or in I2.
    assert (v <= v')%N by (destruct I1 as [I1|[I1|I1]]; [apply (H2 _ _ I1 G1)|injection I1 as <- _; lia|pose proof (H3 _ _ I1 G1); lia]).
    assert (v' <= v)%N by (destruct I2 as [I2|[I2|I2]]; [apply (G2 _ _ I2 H1)|injection I2 as <- _; lia|pose proof (G3 _ _ I2 H1); lia]).
    lia. }
  subst v'. split; [reflexivity|].
  revert p' E H2. induction p as [|q p IH]; intros [|q' p'] E H2; cbn in E.
  - congruence.
  - injection E as <- E. subst s. exfalso. pose proof (G3 v a' ltac:(apply in_or_app; right; left; reflexivity) H1). lia.
  - injection E as -> E. subst s'. exfalso. pose proof (H3 v a ltac:(apply in_or_app; right; left; reflexivity) G1). lia.
  - injection E as <- E. apply (IH ltac:(intros w b Hin; apply (G2 w b); right; exact Hin) p' E).
    intros w b Hin. apply (H2 w b). right; exact Hin.
Qed.

Lemma governs_map {A B} (f : A -> B) opset l v b : governs opset (map (fun p => (fst p, f (snd p))) l) v b <->
  exists a, governs opset l v a /\ b = f a.
Proof.
  split.
  - intros [p [s [E [G1 [G2 G3]]]]]. apply map_eq_app in E. destruct E as [p0 [r0 [-> [<- E]]]].
    destruct r0 as [|[w a] s0]; cbn in E; [discriminate|]. injection E as -> <- <-.
    exists a. split; [|reflexivity]. exists p0, s0. split; [reflexivity|]. split; [exact G1|]. split; intros x y Hin Hx.
    + apply (G2 x (f y)); [|exact Hx]. apply in_map_iff. exists (x, y). auto.
    + apply (G3 x (f y)); [|exact Hx]. apply in_map_iff. exists (x, y). auto.
  - intros [a [[p [s [-> [G1 [G2 G3]]]]] ->]]. exists (map (fun p => (fst p, f (snd p))) p), (map (fun p => (fst p, f (snd p))) s).
    split; [rewrite map_app; reflexivity|]. split; [exact G1|]. split; intros x y Hin Hx.
    + apply in_map_iff in Hin. destruct Hin as [[u w] [E Hin]]. injection E as <- <-. apply (G2 u w Hin Hx).
    + apply in_map_iff in Hin. destruct Hin as [[u w] [E Hin]]. injection E as <- <-. apply (G3 u w Hin Hx).
Qed.

(** Induction over nested specifications. *)
Section InInd.
  Variable P : input_spec -> Prop.
  Hypothesis He : forall n, P (IExact n).
  Hypothesis Ha : forall n, P (IAtLeast n).
  Hypothesis Hr : forall a b, P (IRange a b).
  Hypothesis Ho : forall l, (forall v a, In (v, a) l -> P a) -> P (IOpset l).
  Fixpoint input_spec_ind' (s : input_spec) : P s :=
    match s with
    | IExact n => He n
    | IAtLeast n => Ha n
    | IRange a b => Hr a b
    | IOpset l => Ho l
        ((fix go (l : list (N * input_spec)) : forall v a, In (v, a) l -> P a :=
           match l with
           | [] => fun v a H => match H with end
           | (w, b) :: r => fun v a H =>
               match H with
               | or_introl E => eq_ind b P (input_spec_ind' b) a (f_equal snd E)
               | or_intror H' => go r v a H'
               end
           end) l)
    end.
End InInd.
Section OutInd.
  Variable P : output_spec -> Prop.
  Hypothesis He : forall n, P (OExact n).
  Hypothesis Hr : forall a b, P (ORange a b).
  Hypothesis Ho : forall l, (forall v a, In (v, a) l -> P a) -> P (OOpset l).
  Fixpoint output_spec_ind' (s : output_spec) : P s :=
    match s with
    | OExact n => He n
    | ORange a b => Hr a b
    | OOpset l => Ho l
        ((fix go (l : list (N * output_spec)) : forall v a, In (v, a) l -> P a :=
           match l with
           | [] => fun v a H => match H with end
           | (w, b) :: r => fun v a H =>
               match H with
               | or_introl E => eq_ind b P (output_spec_ind' b) a (f_equal snd E)
               | or_intror H' => go r v a H'
               end
           end) l)
    end.
End OutInd.

Lemma governs_in {A} opset (l : list (N * A)) v a : governs opset l v a -> In (v, a) l /\ (v <= opset)%N.
Proof. intros [p [s [-> [G _]]]]. split; [apply in_or_app; right; left; reflexivity|exact G]. Qed.

Lemma input_ok_spec opset count s : input_ok opset count s = true <-> in_range_in opset count s.
Proof.
  induction s as [e|m|lo hi|l IH] using input_spec_ind'; cbn [input_ok].
  - rewrite N.eqb_eq. split; [intros ->; constructor|inversion 1; reflexivity].
  - split; [intros H; constructor; lia|inversion 1; subst; lia].
  - split; [intros H; constructor; lia|inversion 1; subst; lia].
  - pose proof (applicable_spec opset (map (fun p => (fst p, input_ok opset count (snd p))) l) None) as S.
    destruct (applicable opset (map (fun p => (fst p, input_ok opset count (snd p))) l) None) as [[v b]|].
    + destruct S as [[G _]|[E _]]; [|discriminate]. apply governs_map in G. destruct G as [a [G ->]].
      pose proof (governs_in _ _ _ _ G) as [Hin Hle]. rewrite (IH v a Hin). split.
      * intros H. apply (rin_opset opset count l v a G H).
      * inversion 1 as [| | |l' Hn|l' v' a' G' R]; subst.
        -- specialize (Hn v a Hin). lia.
        -- destruct (governs_fun _ _ _ _ _ _ G G') as [_ ->]. exact R.
    + destruct S as [_ S]. split; [|reflexivity]. intros _. apply rin_none. intros v a Hin.
      apply (S v (input_ok opset count a)). apply in_map_iff. exists (v, a). auto.
Qed.
Lemma output_ok_spec opset count s : output_ok opset count s = true <-> in_range_out opset count s.
Proof.
  induction s as [e|lo hi|l IH] using output_spec_ind'; cbn [output_ok].
  - rewrite N.eqb_eq. split; [intros ->; constructor|inversion 1; reflexivity].
  - split; [intros H; constructor; lia|inversion 1; subst; lia].
  - pose proof (applicable_spec opset (map (fun p => (fst p, output_ok opset count (snd p))) l) None) as S.
    destruct (applicable opset (map (fun p => (fst p, output_ok opset count (snd p))) l) None) as [[v b]|].
    + destruct S as [[G _]|[E _]]; [|discriminate]. apply governs_map in G. destruct G as [a [G ->]].
      pose proof (governs_in _ _ _ _ G) as [Hin Hle]. rewrite (IH v a Hin). split.
      * intros H. apply (rout_opset opset count l v a G H).
      * inversion 1 as [| |l' Hn|l' v' a' G' R]; subst.
        -- specialize (Hn v a Hin). lia.
        -- destruct (governs_fun _ _ _ _ _ _ G G') as [_ ->]. exact R.
    + destruct S as [_ S]. split; [|reflexivity]. intros _. apply rout_none. intros v a Hin.
      apply (S v (output_ok opset count a)). apply in_map_iff. exists (v, a). auto.
Qed.

Lemma validate_spec n opset s : validate_node_spec n opset s = true <->
  (min_opset s <= opset)%N /\ (forall m, max_opset s = Some m -> (opset <= m)%N) /\
  in_range_in opset (onnx_input_count n) (in_spec s) /\
  in_range_out opset (N.of_nat (length (noutputs n))) (out_spec s).
Proof.
  unfold validate_node_spec. rewrite !andb_true_iff, input_ok_spec, output_ok_spec.
  destruct (max_opset s) as [m|]; split.
  - intros [[[H1 H2] H3] H4]. split; [lia|]. split; [intros ? E; injection E as <-; lia|]. auto.
  - intros [H1 [H2 [H3 H4]]]. specialize (H2 m eq_refl). split; [split; [split; lia|exact H3]|exact H4].
  - intros [[[H1 H2] H3] H4]. split; [lia|]. split; [discriminate|]. auto.
  - intros [H1 [H2 [H3 H4]]]. split; [split; [split; [lia|reflexivity]|exact H3]|exact H4].
Qed.

(** ** The loop *)
Lemma rnode_eta n : set_inputs n (ninputs n) = n.
Proof. destruct n; reflexivity. Qed.

Lemma map_flag_id {A} (f : A -> A * bool) l : (forall x, In x l -> snd (f x) = false -> fst (f x) = x) ->
  snd (map_flag f l) = false -> fst (map_flag f l) = l.
Proof.
  unfold map_flag; cbn. induction l as [|x l IH]; cbn; intros Hf H; [reflexivity|].
  apply orb_false_iff in H. destruct H as [H1 H2]. rewrite (Hf x (or_introl eq_refl) H1), IH; auto.
Qed.

Lemma sync_arg_id name ty a : snd (sync_arg name ty a) = false -> fst (sync_arg name ty a) = a.
Proof. unfold sync_arg. destruct (String.eqb _ _); [|reflexivity]. destruct (ty_eqb _ _); [reflexivity|discriminate]. Qed.

Lemma sync_node_id name ty n : snd (sync_node name ty n) = false -> fst (sync_node name ty n) = n.
Proof.
  unfold sync_node. destruct (map_flag (sync_arg name ty) (ninputs n)) as [is c] eqn:E. cbn. intros ->.
  pose proof (map_flag_id (sync_arg name ty) (ninputs n) (fun x _ => sync_arg_id name ty x)) as H. rewrite E in H. cbn in H.
  rewrite H by reflexivity. apply rnode_eta.
Qed.

Lemma sync_node_flag name ty n n' : ninputs n = ninputs n' -> snd (sync_node name ty n) = snd (sync_node name ty n').
Proof. unfold sync_node, map_flag. intros ->. reflexivity. Qed.

Lemma sync_map_id o l : existsb (fun x => snd (sync_node (aname o) (aty o) x)) l = false ->
  map (fun x => fst (sync_node (aname o) (aty o) x)) l = l.
Proof. exact (map_flag_id (sync_node (aname o) (aty o)) l (fun x _ => sync_node_id _ _ x)). Qed.

Lemma push_outputs_cons o outs rest : push_outputs (o :: outs) rest =
  (fst (push_outputs outs (map (fun x => fst (sync_node (aname o) (aty o) x)) rest)),
   (existsb (fun x => snd (sync_node (aname o) (aty o) x)) rest ||
    snd (push_outputs outs (map (fun x => fst (sync_node (aname o) (aty o) x)) rest)))%bool).
Proof.
  cbn [push_outputs]. unfold map_flag.
  destruct (push_outputs outs (map (fun x => fst (sync_node (aname o) (aty o) x)) rest)); reflexivity.
Qed.

Lemma push_outputs_id : forall outs rest, snd (push_outputs outs rest) = false -> fst (push_outputs outs rest) = rest.
Proof.
  induction outs as [|o outs IH]; intros rest H; [reflexivity|]. rewrite push_outputs_cons in *. cbn [fst snd] in *.
  apply orb_false_iff in H. destruct H as [H1 H2]. rewrite (sync_map_id o rest H1) in *. apply IH. exact H2.
Qed.

Lemma push_outputs_again : forall outs rest rest', map ninputs rest = map ninputs rest' ->
  snd (push_outputs outs rest) = false -> push_outputs outs rest' = (rest', false).
Proof.
  induction outs as [|o outs IH]; intros rest rest' Hin H; [reflexivity|].
  rewrite push_outputs_cons in *. cbn [fst snd] in *.
  assert (Hfl : existsb (fun x => snd (sync_node (aname o) (aty o) x)) rest' =
                existsb (fun x => snd (sync_node (aname o) (aty o) x)) rest).
  { clear - Hin. revert rest' Hin. induction rest as [|x rest IHr]; intros [|y rest'] Hin; cbn [map] in Hin; try discriminate; [reflexivity|].
    assert (H1 : ninputs x = ninputs y) by congruence. assert (H2 : map ninputs rest = map ninputs rest') by congruence.
    cbn [existsb]. rewrite (IHr rest' H2), (sync_node_flag _ _ x y H1). reflexivity. }
  apply orb_false_iff in H. destruct H as [H1 H2]. rewrite Hfl, H1.
  rewrite (sync_map_id o rest') by congruence. rewrite (sync_map_id o rest H1) in H2.
  rewrite (IH rest rest' Hin H2). reflexivity.
Qed.

Lemma sync_all_node_id m n : let r := (let (is, c) := map_flag (sync_all_arg m) (ninputs n) in (set_inputs n is, c)) in
  snd r = false -> fst r = n.
Proof.
  destruct (map_flag (sync_all_arg m) (ninputs n)) as [is c] eqn:E. cbn. intros ->.
  pose proof (map_flag_id (sync_all_arg m) (ninputs n)) as H. rewrite E in H. cbn in H.
  rewrite H; [apply rnode_eta| |reflexivity].
  intros x _. unfold sync_all_arg. destruct (sget m (aname x)); [apply sync_arg_id|reflexivity].
Qed.
Lemma sync_all_id nodes : snd (sync_all nodes) = false -> fst (sync_all nodes) = nodes.
Proof. unfold sync_all. apply map_flag_id. intros x _. apply sync_all_node_id. Qed.

(** Names never change. *)
Definition same_names (n n' : rnode) : Prop := nname n' = nname n /\ out_names n' = out_names n.
Lemma sync_all_names nodes : Forall2 same_names nodes (fst (sync_all nodes)).
Proof.
  unfold sync_all, map_flag. cbn [fst]. generalize (output_types nodes) as m. intros m.
  induction nodes as [|n nodes IH]; cbn; constructor; [|exact IH]. split; reflexivity.
Qed.
Lemma same_names_trans a b c : Forall2 same_names a b -> Forall2 same_names b c -> Forall2 same_names a c.
Proof.
  intros H. revert c. induction H as [|x y a b [H1 H2] F IH]; intros c Hc; inversion Hc as [|? z ? c' [H3 H4] F']; subst; constructor; auto.
  split; congruence.
Qed.

Lemma find_producer_names nodes nodes' x : Forall2 same_names nodes nodes' ->
  option_map nname (find (fun m => mem_str x (out_names m)) nodes') = option_map nname (find (fun m => mem_str x (out_names m)) nodes).
Proof.
  induction 1 as [|n n' l l' [H1 H2] F IH]; cbn; [reflexivity|]. rewrite H2.
  destruct (mem_str x (out_names n)); [cbn; congruence|exact IH].
Qed.
Lemma prefs_for_names nodes nodes' coll n n' : Forall2 same_names nodes nodes' -> nname n' = nname n ->
  prefs_for nodes' coll n' = prefs_for nodes coll n.
Proof.
  intros F E. unfold prefs_for. apply filter_ext. intros [[x c] p]. cbn.
  pose proof (find_producer_names nodes nodes' x F) as H.
  destruct (find (fun m => mem_str x (out_names m)) nodes) as [a|], (find (fun m => mem_str x (out_names m)) nodes') as [b|];
    cbn in H; try discriminate; [|reflexivity]. rewrite E. congruence.
Qed.

Lemma new_requests_grow rs : forall c, exists s, new_requests c rs = c ++ s.
Proof.
  induction rs as [|k rs IH]; intros c; cbn; [exists []; rewrite app_nil_r; reflexivity|].
  unfold new_requests in IH. destruct (existsb (pkey_eqb k) c); [apply IH|].
  destruct (IH (c ++ [k])) as [s ->]. exists ([k] ++ s). rewrite <- app_assoc. reflexivity.
Qed.
Lemma new_requests_same rs c : length (new_requests c rs) = length c -> new_requests c rs = c.
Proof.
  destruct (new_requests_grow rs c) as [s E]. rewrite E, app_length. intros H.
  destruct s; [apply app_nil_r|cbn in H; lia].
Qed.
Lemma pkey_eqb_eq a b : pkey_eqb a b = true <-> a = b.
Proof.
  destruct a as [[o1 c1] p1], b as [[o2 c2] p2]. cbn. rewrite !andb_true_iff, !String.eqb_eq. split.
  - intros [[-> ->] H]. apply internal_pref_dec_bl in H. subst. reflexivity.
  - intros E. injection E as -> -> ->. split; [auto|]. apply internal_pref_dec_lb. reflexivity.
Qed.
Lemma new_requests_in rs : forall c k, In k rs \/ In k c -> In k (new_requests c rs).
Proof.
  induction rs as [|r rs IH]; intros c k H; cbn; [destruct H as [[]|H]; exact H|].
  unfold new_requests in IH. destruct (existsb (pkey_eqb r) c) eqn:E.
  - apply IH. destruct H as [[<-|H]|H]; auto. right. apply existsb_exists in E. destruct E as [x [Hx Ex]].
    apply pkey_eqb_eq in Ex. subst x. exact Hx.
  - apply IH. destruct H as [[<-|H]|H]; auto; right; apply in_or_app; [right; left; reflexivity|left; exact H].
Qed.

Section LoopProofs.
  Variable infer : rnode -> list pkey -> option rnode.
  Variable wants : rnode -> string -> list pref.
  Variable spec : string -> node_spec.
  Variable opset : N.
  Hypothesis Hassign : assigns_output_types infer.

  Lemma validate_same n n' : ntype n' = ntype n -> ninputs n' = ninputs n -> nattrs n' = nattrs n ->
    map aname (noutputs n') = map aname (noutputs n) ->
    validate_node_spec n' opset (spec (ntype n')) = validate_node_spec n opset (spec (ntype n)).
  Proof.
    intros E1 E2 E3 E4. unfold validate_node_spec, onnx_input_count, get_attr. rewrite E1, E2, E3.
    apply (f_equal (@length string)) in E4. rewrite !map_length in E4. rewrite E4. reflexivity.
  Qed.

  (** A sweep that reports no change is reproduced by a second one. *)
  Lemma sweep_again : forall fuel pf pf' todo out,
    sweep infer spec opset fuel pf todo = Some (out, false) ->
    (forall n n', In n todo -> nname n' = nname n -> pf' n' = pf n) ->
    Forall2 same_names todo out /\ map ninputs out = map ninputs todo /\
    (forall n', In n' out -> infer n' (pf' n') = Some n') /\
    forall fuel', (length out <= fuel')%nat -> sweep infer spec opset fuel' pf' out = Some (out, false).
  Proof.
    induction fuel as [|f IH]; intros pf pf' [|n rest] out H Hpf; cbn [sweep] in H.
    - injection H as <-. repeat split; [constructor|intros ? []|]. intros [|?] _; reflexivity.
    - discriminate.
    - injection H as <-. repeat split; [constructor|intros ? []|]. intros [|?] _; reflexivity.
    - destruct (validate_node_spec n opset (spec (ntype n))) eqn:Ev; [|discriminate].
      destruct (infer n (pf n)) as [n'|] eqn:Ei; [|discriminate].
      destruct (no_rank_zero n') eqn:Ez; [|discriminate].
      destruct (push_outputs (noutputs n') rest) as [rest' c] eqn:Ep.
      destruct (sweep infer spec opset f pf rest') as [[done c']|] eqn:Es; [|discriminate].
      assert (Hd : n' :: done = out) by congruence. assert (Hc : (c || c')%bool = false) by congruence. subst out. clear H.
      apply orb_false_iff in Hc. destruct Hc as [-> ->].
      assert (Hr : rest' = rest).
      { pose proof (push_outputs_id (noutputs n') rest) as H. rewrite Ep in H. cbn in H. auto. }
      subst rest'.
      destruct (IH pf pf' rest done Es) as [I1 [I2 [I3 I4]]].
      { intros x y Hx. apply Hpf. right; exact Hx. }
      destruct (Hassign n (pf n) n' Ei) as [A1 [A2 [A3 [A4 [A5 A6]]]]].
      assert (Hi' : infer n' (pf' n') = Some n').
      { rewrite (Hpf n n' (or_introl eq_refl) A2). exact A6. }
      split; [constructor; [split; [exact A2|exact A5]|exact I1]|].
      split; [cbn; congruence|].
      split; [intros x [<-|Hx]; [exact Hi'|apply I3; exact Hx]|].
      intros [|f'] Hf'; cbn in Hf'; [lia|]. cbn [sweep].
      rewrite (validate_same n n' A1 A3 A4 A5), Ev, Hi', Ez.
      rewrite (push_outputs_again (noutputs n') rest done); [|symmetry; exact I2|rewrite Ep; reflexivity].
      rewrite I4 by lia. reflexivity.
  Qed.

  Lemma iteration_facts first nodes coll nodes' coll' :
    iteration infer wants spec opset first nodes coll = Some (nodes', coll', true) ->
    coll' = coll /\ sync_all nodes' = (nodes', false) /\ new_requests coll (requests wants nodes') = coll /\
    Forall2 same_names nodes nodes' /\
    (forall n, In n nodes' -> infer n (prefs_for nodes' coll n) = Some n) /\
    iteration infer wants spec opset false nodes' coll' = Some (nodes', coll', true).
  Proof.
    unfold iteration. set (nodes1 := if first then nodes else fst (sync_all nodes)).
    destruct (sweep infer spec opset (length nodes1) (prefs_for nodes coll) nodes1) as [[nodes2 c1]|] eqn:Es; [|discriminate].
    destruct (sync_all nodes2) as [nodes3 c2] eqn:Ey. intros H.
    assert (E1 : nodes3 = nodes') by congruence. assert (E2 : new_requests coll (requests wants nodes3) = coll') by congruence.
    assert (E3 : (negb (c1 || c2) && Nat.eqb (length (new_requests coll (requests wants nodes3))) (length coll))%bool = true) by congruence.
    clear H. apply andb_prop in E3. destruct E3 as [E3 E4]. apply Nat.eqb_eq in E4. apply new_requests_same in E4.
    apply negb_true_iff, orb_false_iff in E3. destruct E3 as [-> ->].
    assert (E5 : nodes3 = nodes2).
    { pose proof (sync_all_id nodes2) as H. rewrite Ey in H. cbn in H. auto. }
    subst nodes3. subst nodes2. rewrite E4 in E2. subst coll'.
    assert (F1 : Forall2 same_names nodes nodes1).
    { unfold nodes1. destruct first; [|apply sync_all_names].
      clear. induction nodes; constructor; auto. split; reflexivity. }
    assert (F2 : Forall2 same_names nodes1 nodes').
    { destruct (sweep_again _ _ (prefs_for nodes coll) _ _ Es) as [H _]; [|exact H].
      intros n n' _ E. apply prefs_for_names; [|exact E]. clear. induction nodes; constructor; auto. split; reflexivity. }
    pose proof (same_names_trans _ _ _ F1 F2) as F3.
    destruct (sweep_again _ _ (prefs_for nodes' coll) _ _ Es) as [_ [_ [S1 S2]]].
    { intros n n' _ E. apply prefs_for_names; assumption. }
    split; [reflexivity|]. split; [exact Ey|]. split; [exact E4|]. split; [exact F3|]. split; [exact S1|].
    cbv zeta. rewrite Ey. cbn [fst]. rewrite S2 by lia. rewrite Ey, E4, Nat.eqb_refl. reflexivity.
  Qed.

  Lemma ty_eqb_eq a b : ty_eqb a b = true -> a = b.
  Proof.
    destruct a as [d|d|n|[d r s]], b as [d'|d'|n'|[d' r' s']]; cbn; try discriminate.
    - intros H. apply internal_dtype_dec_bl in H. congruence.
    - intros H. apply internal_dtype_dec_bl in H. congruence.
    - intros H. apply N.eqb_eq in H. congruence.
    - rewrite !andb_true_iff. intros [[H1 H2] H3]. apply internal_dtype_dec_bl in H1. apply N.eqb_eq in H2.
      assert (s = s') by (destruct s, s'; cbn in H3; try discriminate; [apply dims_eqb_eq in H3; congruence|reflexivity]).
      congruence.
  Qed.

  Lemma output_types_get nodes x ty :
    (exists p o, In p nodes /\ In o (noutputs p) /\ aname o = x) ->
    (forall p o, In p nodes -> In o (noutputs p) -> aname o = x -> aty o = ty) ->
    sget (output_types nodes) x = Some ty.
  Proof.
    intros Hex Hall. unfold output_types.
    assert (I : forall outs m, (forall o, In o outs -> aname o = x -> aty o = ty) ->
              ((exists o, In o outs /\ aname o = x) \/ sget m x = Some ty) ->
              sget (fold_left (fun m o => sput m (aname o) (aty o)) outs m) x = Some ty).
    { clear. induction outs as [|o outs IH]; intros m Hall Hm; cbn.
      - destruct Hm as [[o [[] _]]|Hm]; exact Hm.
      - apply IH; [intros o' Ho'; apply Hall; right; exact Ho'|].
        destruct (String.eqb_spec (aname o) x) as [E|E].
        + right. cbn. rewrite E, String.eqb_refl. f_equal. apply Hall; [left; reflexivity|exact E].
        + destruct Hm as [[o' [[<-|Ho'] E']]|Hm]; [congruence|left; exists o'; auto|].
          right. cbn. destruct (String.eqb_spec (aname o) x); [congruence|exact Hm]. }
    assert (G : forall l m, (forall p o, In p l -> In o (noutputs p) -> aname o = x -> aty o = ty) ->
              ((exists p o, In p l /\ In o (noutputs p) /\ aname o = x) \/ sget m x = Some ty) ->
              sget (fold_left (fun m n => fold_left (fun m o => sput m (aname o) (aty o)) (noutputs n) m) l m) x = Some ty).
    { clear - I. induction l as [|n l IH]; intros m Hall Hm; cbn.
      - destruct Hm as [[p [o [[] _]]]|Hm]; exact Hm.
      - apply IH; [intros p o Hp; apply Hall; right; exact Hp|].
        destruct Hm as [[p [o [[<-|Hp] R]]]|Hm].
        + right. apply I; [intros o' Ho'; apply (Hall n); [left; reflexivity|exact Ho']|]. left. exists o. exact R.
        + left. exists p, o. auto.
        + right. apply I; [intros o' Ho'; apply (Hall n); [left; reflexivity|exact Ho']|]. right; exact Hm. }
    apply G; [exact Hall|left; exact Hex].
  Qed.

  Lemma iterate_settled : forall k first nodes coll nodes' coll' i,
    iterate infer wants spec opset k first nodes coll = Some (nodes', coll', true, i) ->
    settled infer wants nodes' coll' /\
    iteration infer wants spec opset false nodes' coll' = Some (nodes', coll', true).
  Proof.
    induction k as [|k IH]; intros first nodes coll nodes' coll' i H; cbn [iterate] in H; [discriminate|].
    destruct (iteration infer wants spec opset first nodes coll) as [[[ns c] stop]|] eqn:E; [|discriminate].
    destruct stop.
    - assert (ns = nodes') by congruence. assert (c = coll') by congruence. subst ns c.
      destruct (iteration_facts _ _ _ _ _ E) as [-> [Hy [Hr [_ [Hi Hit]]]]]. split; [|exact Hit].
      split; [exact Hi|]. split.
      + intros n a p o Hn Ha Hp Ho Hna Hu.
        assert (Hg : sget (output_types nodes') (aname a) = Some (aty o)).
        { apply output_types_get; [exists p, o; auto|exact Hu]. }
        unfold sync_all, map_flag in Hy.
        assert (Hf : existsb (fun x => snd (let (is, c) := map_flag (sync_all_arg (output_types nodes')) (ninputs x) in (set_inputs x is, c))) nodes' = false)
          by (unfold map_flag; congruence).
        clear Hy. assert (Hn' : snd (map_flag (sync_all_arg (output_types nodes')) (ninputs n)) = false).
        { destruct (snd (map_flag (sync_all_arg (output_types nodes')) (ninputs n))) eqn:En; [|reflexivity].
          assert (existsb (fun x => snd (let (is, c) := map_flag (sync_all_arg (output_types nodes')) (ninputs x) in (set_inputs x is, c))) nodes' = true)
            by (apply existsb_exists; exists n; split; [exact Hn|exact En]). congruence. }
        cbn in Hn'. assert (Hs : snd (sync_all_arg (output_types nodes') a) = false).
        { destruct (snd (sync_all_arg (output_types nodes') a)) eqn:Ea; [|reflexivity].
          assert (existsb (fun x => snd (sync_all_arg (output_types nodes') x)) (ninputs n) = true)
            by (apply existsb_exists; exists a; auto). congruence. }
        unfold sync_all_arg in Hs. rewrite Hg in Hs. unfold sync_arg in Hs. rewrite String.eqb_refl in Hs.
        destruct (ty_eqb (aty a) (fst (merge_ty (aty o) (aty a)))) eqn:Et; [|discriminate].
        apply ty_eqb_eq. exact Et.
      + intros n a w p Hn Ha Hp Ho Hw. rewrite <- Hr. apply new_requests_in. left.
        unfold requests. apply in_flat_map. exists n. split; [exact Hn|]. apply in_flat_map. exists a. split; [exact Ha|].
        assert (Hx : existsb (fun m => mem_str (aname a) (out_names m)) nodes' = true).
        { apply existsb_exists. exists p. split; [exact Hp|]. apply mem_str_In. exact Ho. }
        rewrite Hx. apply in_map_iff. exists w. auto.
    - destruct (iterate infer wants spec opset k false ns c) as [[[[ns' c'] b] j]|] eqn:Ek; [|discriminate].
      assert (ns' = nodes') by congruence. assert (c' = coll') by congruence. assert (b = true) by congruence. subst.
      apply (IH _ _ _ _ _ _ Ek).
  Qed.
End LoopProofs.

Lemma iterate_bound infer wants spec opset : forall k first nodes coll nodes' coll' b i,
  iterate infer wants spec opset k first nodes coll = Some (nodes', coll', b, i) -> (i <= k)%nat /\ ((i < k)%nat -> b = true).
Proof.
  induction k as [|k IH]; intros first nodes coll nodes' coll' b i H; cbn [iterate] in H.
  - assert (i = O) by congruence. lia.
  - destruct (iteration infer wants spec opset first nodes coll) as [[[ns c] stop]|]; [|discriminate].
    destruct stop.
    + assert (b = true) by congruence. assert (i = 1%nat) by congruence. split; [lia|auto].
    + destruct (iterate infer wants spec opset k false ns c) as [[[[ns' c'] b'] j]|] eqn:Ek; [|discriminate].
      assert (b' = b) by congruence. assert (S j = i) by congruence. destruct (IH _ _ _ _ _ _ _ Ek). split; [lia|].
      intros. subst b'. auto with zarith.
Qed.

Lemma push_outputs_length outs : forall rest, length (fst (push_outputs outs rest)) = length rest.
Proof.
  induction outs as [|o outs IH]; intros rest; [reflexivity|]. rewrite push_outputs_cons. cbn [fst].
  rewrite IH, map_length. reflexivity.
Qed.
Lemma sweep_runs infer spec opset :
  (forall n pf, validate_node_spec n opset (spec (ntype n)) = true /\
     exists n', infer n pf = Some n' /\ no_rank_zero n' = true) ->
  forall fuel pf todo, (length todo <= fuel)%nat -> exists out c, sweep infer spec opset fuel pf todo = Some (out, c).
Proof.
  intros H. induction fuel as [|f IH]; intros pf [|n rest] Hl; cbn [length] in Hl; try lia; cbn [sweep]; [eauto|eauto|].
  destruct (H n (pf n)) as [-> [n' [-> ->]]].
  destruct (push_outputs (noutputs n') rest) as [rest' c] eqn:E.
  pose proof (push_outputs_length (noutputs n') rest) as L. rewrite E in L. cbn [fst] in L.
  destruct (IH pf rest') as [out [c' ->]]; [lia|]. eauto.
Qed.
Lemma iterate_runs infer wants spec opset :
  (forall n pf, validate_node_spec n opset (spec (ntype n)) = true /\
     exists n', infer n pf = Some n' /\ no_rank_zero n' = true) ->
  forall k first nodes coll, exists r, iterate infer wants spec opset k first nodes coll = Some r.
Proof.
  intros H. induction k as [|k IH]; intros first nodes coll; cbn [iterate]; [eauto|].
  unfold iteration. set (nodes1 := if first then nodes else fst (sync_all nodes)).
  destruct (sweep_runs infer spec opset H (length nodes1) (prefs_for nodes coll) nodes1 (Nat.le_refl _)) as [out [c ->]].
  destruct (sync_all out) as [n3 c2]. destruct (_ && _)%bool; [eauto|].
  destruct (IH false n3 (new_requests coll (requests wants n3))) as [[[[a b] d] e] ->]. eauto.
Qed.

Lemma broadcast_rank_sound' tys od ss out ty :
  Forall (fun ty => forall t, ty = TensorT t -> (1 <= tt_rank t)%N) tys ->
  Forall2 fits tys ss -> bcast_of ss out ->
  broadcast_output_type tys od = Some ty ->
  match ty with
  | ScalarTensor _ | ScalarNative _ => length out = 0%nat
  | ShapeT _ => length out = 1%nat
  | TensorT t => N.of_nat (length out) = tt_rank t
  end.
Proof.
  intros H1 H2 H3 H4. pose proof (broadcast_rank_sound tys od ss out ty H1 H2 H3 H4) as H. destruct ty; cbn in H; lia.
Qed.

Lemma merge_dims_taken : forall a b i d, length a = length b -> nth_error a i = Some None -> nth_error b i = Some (Some d) ->
  nth_error (fst (merge_dims a b)) i = Some (Some d).
Proof.
  induction a as [|x a IH]; intros [|y b] [|i] d Hl Ha Hb; cbn in *; try discriminate.
  - injection Ha as ->. injection Hb as ->. destruct (merge_dims a b). reflexivity.
  - specialize (IH b i d ltac:(lia) Ha Hb). destruct (merge_dims a b) as [r c]. cbn in IH. destruct x, y; exact IH.
Qed.
Lemma merge_taken self other ls lo i d :
  tt_rank self = tt_rank other -> tt_shape self = Some ls -> tt_shape other = Some lo ->
  length ls = length lo -> nth_error ls i = Some None -> nth_error lo i = Some (Some d) ->
  exists l', tt_shape (fst (merge_tt self other)) = Some l' /\ nth_error l' i = Some (Some d).
Proof.
  intros Hr Hs Ho Hl H1 H2. unfold merge_tt. rewrite Hr, N.eqb_refl, Hs, Ho, Hl, Nat.eqb_refl. cbn [negb].
  pose proof (merge_dims_taken ls lo i d Hl H1 H2) as H. destruct (merge_dims ls lo) as [r c]. cbn in *. eauto.
Qed.
Lemma merge_taken_whole self other lo :
  tt_rank self = tt_rank other -> tt_shape self = None -> tt_shape other = Some lo ->
  N.of_nat (length lo) = tt_rank self -> tt_shape (fst (merge_tt self other)) = Some lo.
Proof.
  intros Hr Hs Ho Hl. unfold merge_tt. rewrite <- Hr, N.eqb_refl, Hs, Ho. cbn [negb]. rewrite Hl, N.eqb_refl. reflexivity.
Qed.

Lemma input_count_spec n :
  (forall z, get_attr n "__onnx_input_count" = Some (AInt z) -> (0 <= z < 2 ^ 64)%Z -> Z.of_N (onnx_input_count n) = z) /\
  ((forall z, get_attr n "__onnx_input_count" <> Some (AInt z)) -> onnx_input_count n = N.of_nat (length (ninputs n))).
Proof.
  unfold onnx_input_count. split.
  - intros z -> Hz. rewrite Z.mod_small by exact Hz. lia.
  - intros H. destruct (get_attr n "__onnx_input_count") as [[]|]; try reflexivity. destruct (H z eq_refl).
Qed.

Lemma broadcast_element_type : forall tys od ty d,
  broadcast_output_type tys od = Some ty ->
  (od = Some d \/ (od = None /\ forall o, In o tys ->
     match o with TensorT t => tt_dtype t = d | ScalarTensor c | ScalarNative c => c = d | ShapeT _ => d = I64 end)) ->
  (exists n, ty = ShapeT n) \/
  match ty with TensorT t => tt_dtype t = d | ScalarTensor c | ScalarNative c => c = d | ShapeT _ => d = I64 end.
Proof.
  intros tys od ty d H Hd. unfold broadcast_output_type in H.
  destruct (existsb is_shape_ty tys && negb (existsb is_tensor_ty tys)).
  - destruct (filter_map _ tys); [discriminate|]. injection H as <-. left. eexists. reflexivity.
  - right. destruct (broadcast_dtype tys od) as [c|] eqn:E; [|discriminate].
    assert (c = d) as ->.
    { unfold broadcast_dtype in E. destruct Hd as [->|[-> Hd]]; [congruence|].
      destruct (filter_map _ tys) as [|c' r] eqn:Ef.
      - destruct tys as [|o tys]; [discriminate|]. specialize (Hd o (or_introl eq_refl)).
        destruct o; try discriminate; injection E as <-; exact Hd.
      - injection E as <-. clear H. revert Ef. induction tys as [|o tys IH]; [discriminate|]. cbn.
        pose proof (Hd o (or_introl eq_refl)) as Ho.
        destruct o; intros Ef; try (injection Ef as <- _; exact Ho); apply IH; try exact Ef; intros; apply Hd; right; assumption. }
    destruct (_ =? 0)%N; [injection H as <-; reflexivity|]. destruct (_ && _)%bool; injection H as <-; reflexivity.
Qed.
