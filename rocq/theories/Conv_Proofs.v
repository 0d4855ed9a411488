(** Lemmas about convolutions and pooling. *)
From Verif Require Export Conv_Model.
From Verif Require Import Tensor_Proofs Linear_Model Linear_Proofs.
From Coq Require Import Lia ZifyBool ZifyNat ZifyN.
Import Conv_Spec Tensor_Spec.
Local Open Scope N_scope.

(** ** Lists *)
Lemma within_valid s : forall idx, within s idx = true <-> valid_idx s idx.
Proof.
  induction s as [|d s IH]; intros [|i idx]; cbn; split; intros H; try discriminate; try constructor; try (inversion H; fail).
  - apply andb_true_iff in H. lia.
  - apply andb_true_iff in H. apply IH. tauto.
  - inversion H; subst. apply andb_true_iff. split; [lia|apply IH; assumption].
Qed.

Section L.
  Context {T : Type} (add : T -> T -> T) (zero : T).
  Lemma sum_ext {A} (l : list A) (f g : A -> T) : (forall a, In a l -> f a = g a) -> sum add zero l f = sum add zero l g.
  Proof. intros H. unfold sum. f_equal. apply map_ext_in. exact H. Qed.
  Lemma peek_elem t idx : valid_idx (tshape t) idx -> peek zero t idx = elem zero t idx.
  Proof. intros H. unfold peek, elem. apply within_valid in H. rewrite H. reflexivity. Qed.
  Lemma elem_get t idx v : get t idx = Some v -> elem zero t idx = v.
  Proof. intros H. unfold elem. rewrite H. reflexivity. Qed.
End L.

Fixpoint zsub (p b : list N) : list Z := match p, b with x :: p, y :: b => (Z.of_N x - Z.of_N y)%Z :: zsub p b | _, _ => [] end.
Lemma positions_strided ss : forall dl b os qs, length dl = length ss -> length b = length ss -> length os = length ss -> length qs = length ss ->
  positions ss dl b os qs = zsub (strided ss dl os qs) b.
Proof. induction ss as [|s ss IH]; intros [|l dl] [|b bs] [|o os] [|q qs] H1 H2 H3 H4; cbn in *; try discriminate; try reflexivity. f_equal. apply IH; lia. Qed.
Lemma strided_length ss : forall dl os qs, length dl = length ss -> length os = length ss -> length qs = length ss -> length (strided ss dl os qs) = length ss.
Proof. induction ss as [|s ss IH]; intros [|l dl] [|o os] [|q qs] H1 H2 H3; cbn in *; try discriminate; try reflexivity. f_equal. apply IH; lia. Qed.
Lemma inside_leq p : forall b ds, length b = length p -> length ds = length p -> inside ds (zsub p b) = leq2 b p && within ds (minus2 p b).
Proof.
  induction p as [|x p IH]; intros [|y b] [|d ds] H1 H2; cbn in *; try discriminate; try reflexivity.
  rewrite IH by lia.
  replace ((0 <=? Z.of_N x - Z.of_N y)%Z && (Z.of_N x - Z.of_N y <? Z.of_N d)%Z) with ((y <=? x) && (x - y <? d)) by lia.
  destruct (y <=? x), (x - y <? d), (leq2 b p); reflexivity.
Qed.
Lemma zsub_minus p : forall b, length b = length p -> leq2 b p = true -> map Z.to_N (zsub p b) = minus2 p b.
Proof.
  induction p as [|x p IH]; intros [|y b] H1 H2; cbn in *; try discriminate; try reflexivity.
  apply andb_true_iff in H2. f_equal; [lia|apply IH; [lia|tauto]].
Qed.
Lemma within_plus p : forall b ds e, length b = length p -> length ds = length p -> length e = length p -> leq2 b p && within ds (minus2 p b) = true -> within (plus2 (plus2 b ds) e) p = true.
Proof.
  induction p as [|x p IH]; intros [|y b] [|d ds] [|z e] H1 H2 H3 H; cbn in *; try discriminate; try reflexivity.
  assert (H' : leq2 b p && within ds (minus2 p b) = true) by (destruct (leq2 b p), (within ds (minus2 p b)); try reflexivity; rewrite ?andb_false_r in H; discriminate).
  rewrite (IH b ds e) by (lia || exact H').
  assert (y <= x /\ x - y < d) by (apply andb_true_iff in H; destruct H as [Ha Hb]; apply andb_true_iff in Ha, Hb; lia). lia.
Qed.

(** ** The padded input *)
Section Padded.
  Context {T : Type}.
  Lemma pad_some (v : T) b e x n c ds : twf x -> tshape x = n :: c :: ds -> length b = length ds -> length e = length ds -> exists xp, pad_spatial v b e x = Some xp.
  Proof.
    intros Hw Hs Hb He. unfold pad_spatial. rewrite Hs. apply tab_Some. intros idx Hi. inversion Hi as [|i ? idx1 ? Hin Hi1]; subst. inversion Hi1 as [|j ? p ? Hjc Hp]; subst.
    destruct (leq2 b p && within ds (minus2 p b)) eqn:E; [|eexists; reflexivity].
    apply andb_true_iff in E. destruct E as [_ E]. apply within_valid in E.
    destruct (get_valid x (i :: j :: minus2 p b) Hw) as (a & Ha & _); [rewrite Hs; constructor; [assumption|constructor; assumption]|]. exists a. exact Ha.
  Qed.
  Lemma plus2_length (a : list N) : forall b, length b = length a -> length (plus2 a b) = length a.
  Proof. induction a as [|x a IH]; intros [|y b] H; cbn in *; try discriminate; try reflexivity. f_equal. apply IH. lia. Qed.
  Lemma pad_peek (v zero : T) b e x xp n c ds i j p : twf x -> tshape x = n :: c :: ds -> length b = length ds -> length e = length ds -> length p = length ds ->
    pad_spatial v b e x = Some xp -> i < n -> j < c ->
    peek v xp (i :: j :: p) = if inside ds (zsub p b) then elem zero x (i :: j :: map Z.to_N (zsub p b)) else v.
  Proof.
    intros Hw Hs Hb He Hp Hx Hi Hj. unfold pad_spatial in Hx. rewrite Hs in Hx.
    destruct (tab_wf _ _ _ Hx) as [Wp Sp]. rewrite inside_leq by lia.
    unfold peek. rewrite Sp. cbn [within]. replace (i <? n) with true by lia. replace (j <? c) with true by lia. cbn [andb].
    destruct (leq2 b p && within ds (minus2 p b)) eqn:E.
    - assert (W : within (plus2 (plus2 b ds) e) p = true) by (apply within_plus; lia || exact E). rewrite W.
      rewrite (get_tab _ _ _ (i :: j :: p) Hx) by (apply within_valid in W; repeat constructor; assumption).
      rewrite E. apply andb_true_iff in E. destruct E as [E1 E2]. rewrite zsub_minus by (lia || assumption).
      apply within_valid in E2. destruct (get_valid x (i :: j :: minus2 p b) Hw) as (a & Ha & _); [rewrite Hs; repeat constructor; assumption|].
      rewrite Ha. symmetry. apply elem_get. exact Ha.
    - destruct (within (plus2 (plus2 b ds) e) p) eqn:W; [|reflexivity].
      rewrite (get_tab _ _ _ (i :: j :: p) Hx) by (apply within_valid in W; repeat constructor; assumption).
      rewrite E. reflexivity.
  Qed.
End Padded.

(** ** Sizes *)
Lemma out_sizes_counts f (ceil : bool) ks : forall ss dl bs es ds, out_sizes f ceil ks ss dl bs es ds = counts f ceil ks ss dl bs es ds.
Proof.
  induction ks as [|k ks IH]; intros [|s ss] [|l dl] [|b bs] [|e es] [|d ds]; try reflexivity. cbn. rewrite IH. unfold extent.
  replace (l * (k - 1) + 1) with ((k - 1) * l + 1) by lia. replace (d + b + e) with (b + d + e) by lia.
  replace (b + d + e - l * (k - 1) - 1) with (b + d + e - ((k - 1) * l + 1)) by lia.
  destruct (b + d + e <? (k - 1) * l + 1); [reflexivity|]. destruct (counts f ceil ks ss dl bs es ds); reflexivity.
Qed.
Lemma counts_length f (ceil : bool) ks : forall ss dl bs es ds r, counts f ceil ks ss dl bs es ds = Some r -> length r = length ks /\ length ss = length ks /\ length dl = length ks /\ length bs = length ks /\ length es = length ks /\ length ds = length ks.
Proof.
  induction ks as [|k ks IH]; intros [|s ss] [|l dl] [|b bs] [|e es] [|d ds] r H; cbn in H; try discriminate.
  - assert (r = []) by congruence. subst r. repeat split.
  - destruct (b + d + e <? extent k l); [discriminate|]. destruct (counts f ceil ks ss dl bs es ds) as [r'|] eqn:E; [|discriminate].
    destruct (IH _ _ _ _ _ _ E) as (A1 & A2 & A3 & A4 & A5 & A6). assert (Hr : length r = S (length r')) by (injection H as <-; reflexivity). cbn. lia.
Qed.
Lemma valid_len s idx : valid_idx s idx -> length idx = length s.
Proof. intros H. exact (Forall2_length H). Qed.

(** ** Attributes *)
Lemma to_usize_nat v : v < 2 ^ 63 -> to_usize (Z.of_N v) = v.
Proof. intros H. unfold to_usize. rewrite Z.mod_small; [lia|]. change (2 ^ 63) with 9223372036854775808 in H. lia. Qed.
Lemma ints_read n key (d : list N) l : ints_attr n key d l -> attr_i64s_or n key (map Z.of_N d) = IOk (map Z.of_N l).
Proof. unfold ints_attr, attr_i64s_or. destruct (get_attr n key) as [[]|]; intros H; try contradiction; cbn; subst; reflexivity. Qed.
Lemma int_read n key d v : int_attr n key d v -> attr_i64_or n key (Z.of_N d) = IOk (Z.of_N v).
Proof. unfold int_attr, attr_i64_or. destruct (get_attr n key) as [[]|]; intros H; try contradiction; cbn; subst; reflexivity. Qed.
Lemma map_to_usize l : i64_nats l -> map to_usize (map Z.of_N l) = l.
Proof. induction 1 as [|v l H _ IH]; [reflexivity|]. cbn. rewrite to_usize_nat by exact H. f_equal. exact IH. Qed.
Lemma first_k_nat k l : length l = k -> i64_nats l -> first_k k (map Z.of_N l) = IOk l.
Proof.
  intros Hl Hi. unfold first_k. rewrite map_length. replace (Nat.ltb (length l) k) with false by lia.
  rewrite firstn_all2 by (rewrite map_length; lia). rewrite map_to_usize by exact Hi. reflexivity.
Qed.
Lemma repeat_map (v : N) k : repeat (Z.of_N v) k = map Z.of_N (repeat v k).
Proof. induction k; cbn; congruence. Qed.
Lemma existsb_nat l : existsb (fun z => z <? 0)%Z (map Z.of_N l) = false.
Proof. induction l as [|v l IH]; [reflexivity|]. cbn. rewrite IH. replace (Z.of_N v <? 0)%Z with false by lia. reflexivity. Qed.
Lemma forallb_zero l : forallb (fun z => z =? 0)%Z (map Z.of_N l) = true -> l = repeat 0 (length l).
Proof. induction l as [|v l IH]; [reflexivity|]. cbn. intros H. apply andb_true_iff in H. f_equal; [lia|apply IH; tauto]. Qed.
Lemma repeat_split {A} (x : A) a b (l m : list A) : length l = a -> length m = b -> l ++ m = repeat x (a + b) -> l = repeat x a /\ m = repeat x b.
Proof.
  intros Hl Hm H. rewrite repeat_app in H.
  assert (E : firstn a (l ++ m) = firstn a (repeat x a ++ repeat x b)) by (rewrite H; reflexivity).
  rewrite !firstn_app in E. rewrite repeat_length in E. rewrite firstn_all2 in E by lia. rewrite (firstn_all2 (repeat x a)) in E by (rewrite repeat_length; lia).
  replace (a - length l)%nat with 0%nat in E by lia. rewrite Nat.sub_diag in E. rewrite !firstn_O, !app_nil_r in E. subst l. split; [reflexivity|]. apply app_inv_head in H. exact H.
Qed.
Lemma padding_read k b e : length b = k -> length e = k -> i64_nats b -> i64_nats e -> padding_config k (map Z.of_N (b ++ e)) = IOk (b, e).
Proof.
  intros Hb He Ib Ie. unfold padding_config, padding_conf. rewrite map_length, app_length. replace (Nat.ltb (length b + length e) (2 * k)) with false by lia.
  rewrite firstn_all2 by (rewrite map_length, app_length; lia). rewrite existsb_nat.
  destruct (forallb (fun z => (z =? 0)%Z) (map Z.of_N (b ++ e))) eqn:E.
  - apply forallb_zero in E. rewrite app_length in E. destruct (repeat_split _ (length b) (length e) b e eq_refl eq_refl E) as [E1 E2]. unfold ibind, as_tuple. rewrite Hb in E1. rewrite He in E2. rewrite E1, E2. reflexivity.
  - cbn. rewrite map_app, firstn_app, skipn_app, !map_length.
    rewrite firstn_all2 by (rewrite map_length; lia). rewrite skipn_all2 by (rewrite map_length; lia). replace (k - length b)%nat with 0%nat by lia. cbn [firstn skipn app]. rewrite app_nil_r.
    rewrite firstn_all2 by (rewrite map_length; lia). rewrite !map_to_usize by assumption. reflexivity.
Qed.
