(** The modules of convolutions and pooling, and what they compute. *)
From Verif Require Export Conv_Proofs.
From Verif Require Import Tensor_Proofs Linear_Model Linear_Proofs.
From Coq Require Import Lia ZifyBool ZifyNat ZifyN.
Import Conv_Spec Tensor_Spec.
Local Open Scope N_scope.

(** ** Padding *)
Definition auto_is (auto : auto_pad) (p : padding) (pb pe : list N) : Prop :=
  match auto with NotSet => p = Pads pb pe | SameUpper => p = SameUp | SameLower => p = SameLow | Valid => p = Unpadded end.
Definition auto_of (n : rnode) : ires auto_pad := match get_attr n "auto_pad" with Some a => parse_auto_pad a | None => IOk NotSet end.
Lemma padding_attrs k n p pads pad : padding_attr k n p -> attr_i64s_or n "pads" (repeat 0%Z (2 * k)) = IOk pads -> padding_config k pads = IOk pad ->
  exists auto, auto_of n = IOk auto /\ auto_is auto p (fst pad) (snd pad) /\ (forall b e, p = Pads b e -> length b = k /\ length e = k).
Proof.
  intros Hp Ha Hc. unfold auto_of. destruct p as [b e| | |]; unfold padding_attr in Hp.
  - destruct Hp as (Hn & Lb & Le & Ib & Ie & Hi). change 0%Z with (Z.of_N 0) in Ha. rewrite repeat_map in Ha. rewrite (ints_read _ _ _ _ Hi) in Ha.
    assert (pads = map Z.of_N (b ++ e)) by congruence. subst pads. rewrite padding_read in Hc by assumption. assert (pad = (b, e)) by congruence. subst pad.
    exists NotSet. split; [destruct Hn as [-> | ->]; reflexivity|]. split; [reflexivity|]. intros b' e' E. injection E as <- <-. split; assumption.
  - exists SameUpper. rewrite Hp. repeat split; discriminate.
  - exists SameLower. rewrite Hp. repeat split; discriminate.
  - exists Valid. rewrite Hp. repeat split; discriminate.
Qed.
Lemma ceil_div_ok d s : 0 < s -> 0 < d -> d / s + (if d mod s =? 0 then 0 else 1) = ceil_div d s.
Proof.
  intros Hs Hd. unfold ceil_div. pose proof (N.div_mod d s ltac:(lia)) as E. pose proof (N.mod_lt d s ltac:(lia)) as L.
  generalize dependent (d / s). generalize dependent (d mod s). intros r L q E. subst d.
  destruct (r =? 0) eqn:Z.
  - apply (N.div_unique _ _ _ (s - 1)); nia.
  - apply (N.div_unique _ _ _ (r - 1)); nia.
Qed.
Lemma auto_pads_ok auto : auto = SameUpper \/ auto = SameLower -> forall ks ss dl ds p, length ss = length ks -> length dl = length ks -> length ds = length ks ->
  compute_auto_pads auto ds ks ss dl = IOk p -> p = pads_of (mkWin ks ss dl (match auto with SameUpper => SameUp | _ => SameLow end)) ds.
Proof.
  intros Ha. induction ks as [|k ks IH]; intros [|s ss] [|l dl] [|d ds] p H1 H2 H3 H; cbn in H1, H2, H3; try discriminate.
  - cbn in H. assert (p = ([], [])) by congruence. subst p. destruct auto; reflexivity.
  - cbn [compute_auto_pads] in H. destruct (compute_auto_pad_1dim auto d k s l) as [q| |] eqn:E; try discriminate. cbn [ibind] in H.
    destruct (compute_auto_pads auto ds ks ss dl) as [r| |] eqn:R; try discriminate. cbn [ibind] in H. assert (p = (fst q :: fst r, snd q :: snd r)) by congruence. subst p.
    specialize (IH ss dl ds r ltac:(lia) ltac:(lia) ltac:(lia) R). unfold compute_auto_pad_1dim in E.
    destruct Ha as [-> | ->]; (destruct ((k =? 0) || (s =? 0) || (d =? 0)) eqn:Z; [discriminate|]); rewrite ceil_div_ok in E by (clear - Z; lia);
      (match type of E with IOk ?a = _ => assert (Hq : q = a) by congruence end); subst q r; reflexivity.
Qed.
Lemma zeros_same (l : list N) : forallb (N.eqb 0) l = true -> l = repeat 0 (length l).
Proof. induction l as [|v l IH]; [reflexivity|]. cbn [forallb length repeat]. intros H. apply andb_true_iff in H. f_equal; [lia|apply IH; tauto]. Qed.
Lemma each4_length f : forall a b c d, length b = length a -> length c = length a -> length d = length a -> length (each4 f a b c d) = length a.
Proof. induction a as [|x a IH]; intros [|y b] [|z c] [|w d] H1 H2 H3; cbn in *; try discriminate; try reflexivity. f_equal. apply IH; lia. Qed.
Lemma pads_length w ds k : length (w_kernel w) = k -> length (w_stride w) = k -> length (w_dilation w) = k -> length ds = k ->
  (forall b e, w_pad w = Pads b e -> length b = k /\ length e = k) -> length (fst (pads_of w ds)) = k /\ length (snd (pads_of w ds)) = k.
Proof.
  intros H1 H2 H3 H4 H5. unfold pads_of. destruct (w_pad w) as [b e| | |]; cbn [fst snd]; [apply H5; reflexivity| | |];
    rewrite ?each4_length, ?map_length by lia; split; lia.
Qed.
Lemma map_const {A} (v : N) (l : list A) : map (fun _ => v) l = repeat v (length l).
Proof. induction l; cbn; congruence. Qed.
Lemma tokens_ok k p pad b e : length b = k -> length e = k -> padding_tokens k (Some (b, e)) = IOk pad -> p = Some (b, e) -> burn_padding k pad = (b, e).
Proof.
  intros Hb He H _. cbn in H. destruct (Nat.eqb k 3) eqn:K.
  - destruct (eqs b e) eqn:E; [|discriminate]. apply eqs_true in E. subst e. assert (pad = Some b) by congruence. subst pad. cbn. rewrite K. reflexivity.
  - assert (pad = Some (b ++ e)) by congruence. subst pad. cbn. rewrite K. rewrite firstn_app, skipn_app, firstn_all2, skipn_all2 by lia.
    replace (k - length b)%nat with 0%nat by lia. cbn [firstn skipn app]. rewrite app_nil_r. reflexivity.
Qed.
Lemma resolve_ok k w ds auto pb pe sp p pad : auto_is auto (w_pad w) pb pe ->
  length (w_kernel w) = k -> length (w_stride w) = k -> length (w_dilation w) = k -> length ds = k ->
  (forall b e, w_pad w = Pads b e -> length b = k /\ length e = k) -> (forall l, sp = Some l -> l = ds) ->
  resolve_auto_pad auto pb pe sp (w_kernel w) (w_stride w) (w_dilation w) = IOk p -> padding_tokens k p = IOk pad -> burn_padding k pad = pads_of w ds.
Proof.
  intros Ha H1 H2 H3 H4 H5 H6 Hr Ht. destruct w as [ks ss dl wp]. cbn [w_kernel w_stride w_dilation w_pad] in *.
  assert (Hsame : forall a, a = SameUpper \/ a = SameLower -> wp = (match a with SameUpper => SameUp | _ => SameLow end) ->
    match sp with None => IPanic | Some l => ibind (compute_auto_pads a l ks ss dl) (fun p => IOk (Some p)) end = IOk p -> burn_padding k pad = pads_of (mkWin ks ss dl wp) ds).
  { intros a Ho Hw Hq. destruct sp as [l|]; [|discriminate]. specialize (H6 l eq_refl). subst l. destruct (compute_auto_pads a ds ks ss dl) as [q| |] eqn:Q; try discriminate.
    cbn [ibind] in Hq. assert (p = Some q) by congruence. subst p. pose proof (auto_pads_ok a Ho ks ss dl ds q ltac:(lia) ltac:(lia) ltac:(lia) Q) as E. rewrite <- Hw in E.
    destruct (pads_length (mkWin ks ss dl wp) ds k H1 H2 H3 H4 H5) as [L1 L2]. rewrite <- E in L1, L2 |- *. destruct q as [b e]. exact (tokens_ok k _ pad b e L1 L2 Ht eq_refl). }
  unfold resolve_auto_pad in Hr. destruct auto; cbn in Ha.
  - unfold pads_of; cbn [w_pad]; rewrite Ha. destruct (H5 _ _ Ha) as [L1 L2]. destruct (forallb (N.eqb 0) (pb ++ pe)) eqn:Z.
    + assert (p = None) by congruence. subst p. cbn in Ht. assert (pad = None) by congruence. subst pad. cbn. apply zeros_same in Z. rewrite app_length in Z.
      destruct (repeat_split _ (length pb) (length pe) pb pe eq_refl eq_refl Z) as [E1 E2]. rewrite L1 in E1. rewrite L2 in E2. rewrite E1, E2. reflexivity.
    + assert (p = Some (pb, pe)) by congruence. subst p. exact (tokens_ok k _ pad pb pe L1 L2 Ht eq_refl).
  - exact (Hsame SameUpper (or_introl eq_refl) Ha Hr).
  - exact (Hsame SameLower (or_intror eq_refl) Ha Hr).
  - assert (p = None) by congruence. subst p. cbn in Ht. assert (pad = None) by congruence. subst pad. unfold pads_of; cbn [w_pad]; rewrite Ha. cbn. rewrite map_const, H4. reflexivity.
Qed.

(** ** Configurations *)
Ltac step H E := match type of H with ibind ?r _ = _ => destruct r eqn:E; try discriminate; cbn [ibind] in H end.
Lemma strides_read k n ss dl : strides_attr k n ss dl ->
  attr_i64s_or n "strides" (repeat 1%Z k) = IOk (map Z.of_N ss) /\ attr_i64s_or n "dilations" (repeat 1%Z k) = IOk (map Z.of_N dl) /\
  first_k k (map Z.of_N ss) = IOk ss /\ first_k k (map Z.of_N dl) = IOk dl.
Proof.
  intros (L1 & I1 & P1 & A1 & L2 & I2 & P2 & A2). change 1%Z with (Z.of_N 1). rewrite repeat_map. rewrite (ints_read _ _ _ _ A1), (ints_read _ _ _ _ A2).
  rewrite !first_k_nat by assumption. auto.
Qed.
Lemma kernel_read k n ks kernel r : kernel_attr k n ks -> (1 <= k)%nat -> attr_i64s_or n "kernel_shape" [] = IOk kernel ->
  match kernel with [] => r | _ => first_k k kernel end = if match kernel with [] => true | _ => false end then r else IOk ks.
Proof.
  intros (L & P & I & [A|A]) Hk H; unfold attr_i64s_or in H; rewrite A in H; cbn in H.
  - assert (kernel = []) by congruence. subst kernel. reflexivity.
  - assert (kernel = map Z.of_N ks) by congruence. subst kernel. rewrite first_k_nat by assumption. destruct ks; [cbn in L; lia|]. reflexivity.
Qed.
Lemma conv_config_ok value k n w c i1 v : window_attrs k n w -> (1 <= k)%nat -> nth_error (ninputs n) 1 = Some i1 -> value i1 = Some v -> skipn 2 (cv_shape v) = w_kernel w ->
  conv_config value k n = IOk c ->
  cc_kernel c = w_kernel w /\ cc_stride c = w_stride w /\ cc_dilation c = w_dilation w /\ auto_is (cc_auto c) (w_pad w) (cc_begin c) (cc_end c) /\
  (forall g, int_attr n "group" 1 g -> g < 2 ^ 63 -> cc_group c = g) /\ (forall b e, w_pad w = Pads b e -> length b = k /\ length e = k).
Proof.
  intros (Hk & Hs & Hp) K H1 Hv Hw H. unfold conv_config in H. rewrite H1, Hv in H.
  destruct (Nat.eqb k 3 && negb (forallb (fun kv => mem_str (fst kv) conv_attrs) (nattrs n))); [discriminate|].
  step H Ek. destruct (strides_read _ _ _ _ Hs) as (S1 & S2 & S3 & S4). rewrite S1 in H. cbn [ibind] in H. step H Ep. rewrite S2 in H. cbn [ibind] in H. step H Eg. fold (auto_of n) in H.
  step H Ea. step H Ec. rewrite (kernel_read k n _ _ _ Hk K Ek) in H. step H Ew. rewrite S3 in H. cbn [ibind] in H. rewrite S4 in H. cbn [ibind] in H.
  destruct (padding_attrs k n _ _ _ Hp Ep Ec) as (auto & A1 & A2 & A3). assert (a2 = auto) by congruence. subst a2. injection H as <-. cbn [cc_kernel cc_stride cc_dilation cc_auto cc_begin cc_end cc_group].
  assert (a4 = w_kernel w) by (destruct a; [destruct (Nat.eqb (length (cv_shape v)) (k + 2)); [congruence|discriminate]|congruence]).
  repeat split; try assumption; try (apply (A3 b e); assumption).
  intros g Hg Hlt. change 1%Z with (Z.of_N 1) in Eg. rewrite (int_read _ _ _ _ Hg) in Eg. assert (a1 = Z.of_N g) by congruence. subst a1. apply to_usize_nat. exact Hlt.
Qed.
Lemma pool_config_ok k (avg : bool) n w c : window_attrs k n w -> (1 <= k)%nat -> get_attr n "kernel_shape" = Some (AInts (map Z.of_N (w_kernel w))) ->
  pool_config k avg n = IOk c ->
  pc_kernel c = w_kernel w /\ pc_stride c = w_stride w /\ pc_dilation c = w_dilation w /\ auto_is (pc_auto c) (w_pad w) (pc_begin c) (pc_end c) /\
  (forall v, int_attr n "ceil_mode" 0 v -> pc_ceil c = (v =? 1)) /\ (forall v, int_attr n "count_include_pad" 0 v -> avg = true -> pc_include_pad c = (v =? 1)) /\
  (forall b e, w_pad w = Pads b e -> length b = k /\ length e = k).
Proof.
  intros (Hk & Hs & Hp) K Hker H. unfold pool_config in H.
  unfold attr_i64s_or in H at 1. rewrite Hker in H. cbn [ibind attr_i64s] in H.
  destruct (strides_read _ _ _ _ Hs) as (S1 & S2 & S3 & S4). rewrite S1 in H. cbn [ibind] in H. step H Ep. rewrite S2 in H. cbn [ibind] in H. step H Ece. step H Ei. fold (auto_of n) in H.
  step H Ea. step H Ec. destruct Hk as (L & P & I & _). rewrite first_k_nat in H by assumption. cbn [ibind] in H. rewrite S3 in H. cbn [ibind] in H. rewrite S4 in H. cbn [ibind] in H.
  destruct (padding_attrs k n _ _ _ Hp Ep Ec) as (auto & A1 & A2 & A3). assert (a2 = auto) by congruence. subst a2. injection H as <-. cbn.
  repeat split; try assumption; try (apply (A3 b e); assumption).
  - intros v Hv. change 0%Z with (Z.of_N 0) in Ece. rewrite (int_read _ _ _ _ Hv) in Ece. assert (a0 = Z.of_N v) by congruence. subst a0. lia.
  - intros v Hv ->. change 0%Z with (Z.of_N 0) in Ei. rewrite (int_read _ _ _ _ Hv) in Ei. assert (a1 = Z.of_N v) by congruence. subst a1. lia.
Qed.
Lemma input_spatial_ok n x ins s ds sp : ninputs n = x :: ins -> (forall l, static_shape_known (aty x) = Some l -> l = s) -> (exists a b, s = a :: b :: ds) -> input_spatial n = IOk sp -> forall l, sp = Some l -> l = ds.
Proof.
  intros Hn Hf (a & b & ->) H l ->. unfold input_spatial in H. rewrite Hn in H. destruct (static_shape_known (aty x)) as [[|? [|? ?]]|]; try discriminate.
  specialize (Hf _ eq_refl). congruence.
Qed.
