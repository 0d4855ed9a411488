(** What the modules of convolutions and pooling compute. *)
From Verif Require Export Conv_Nodes.
From Verif Require Import Tensor_Proofs Linear_Model Linear_Proofs.
From Coq Require Import Lia ZifyBool ZifyNat ZifyN.
Import Conv_Spec Tensor_Spec.
Local Open Scope N_scope.

Lemma counts_floor f g ks : forall ss dl bs es ds, counts f false ks ss dl bs es ds = counts g false ks ss dl bs es ds.
Proof. induction ks as [|k ks IH]; intros [|s ss] [|l dl] [|b bs] [|e es] [|d ds]; try reflexivity. cbn. rewrite (IH ss dl bs es ds). reflexivity. Qed.
Lemma group_index j m g : 0 < g -> m mod g = 0 -> j < m -> j / (m / g) < g /\ 0 < m / g /\ m = g * (m / g).
Proof.
  intros Hg Hm Hj. pose proof (N.div_mod m g ltac:(lia)) as E. rewrite Hm, N.add_0_r in E. set (q := m / g) in *. assert (Hq : 0 < q) by nia.
  split; [|auto]. apply N.div_lt_upper_bound; [lia|]. rewrite N.mul_comm. lia.
Qed.
Lemma below_mul a b x y : x < a -> y < b -> x * b + y < a * b. Proof. nia. Qed.

Section Run.
  Context {T : Type} (add mul : T -> T -> T) (zero : T) (ceil_count : N -> N -> N -> N -> N -> N -> N).

  Lemma bias_same B m j y : bias_ok B m -> j < m -> burn_bias add zero B j y = with_bias add zero B j y.
  Proof.
    intros H Hj. unfold burn_bias, with_bias. destruct B as [b|]; [|reflexivity]. destruct (H b eq_refl) as [_ Hs]. f_equal. apply peek_elem. rewrite Hs. repeat constructor. exact Hj.
  Qed.

  Lemma conv_forward_ok k w group X W B n c ds mo cg pad : twf X -> tshape X = n :: c :: ds -> length ds = k -> tshape W = mo :: cg :: w_kernel w ->
    c = cg * group -> 0 < group -> mo mod group = 0 -> bias_ok B mo ->
    length (w_kernel w) = k -> length (w_stride w) = k -> length (w_dilation w) = k -> (forall b e, w_pad w = Pads b e -> length b = k /\ length e = k) ->
    burn_padding k pad = pads_of w ds ->
    conv_forward add mul zero ceil_count k (mkConvM (cg * group) mo (w_kernel w) (w_stride w) (w_dilation w) pad group W B) X = onnx_conv add mul zero w group X W B.
  Proof.
    intros HX SX Lds SW Hc Hg Hm HB Lk Ls Ll Lp Hpad. subst c. unfold conv_forward, onnx_conv. rewrite SX, SW. cbn [cm_in cm_out cm_kernel cm_stride cm_dilation cm_pad cm_groups cm_weight cm_bias].
    rewrite N.eqb_refl. rewrite Hpad. destruct (pads_length w ds k Lk Ls Ll Lds Lp) as [L1 L2]. destruct (pads_of w ds) as [b e]. cbn [fst snd] in L1, L2.
    destruct (pad_some zero b e X n (cg * group) ds HX SX ltac:(lia) ltac:(lia)) as [xp Hxp]. rewrite Hxp. rewrite out_sizes_counts.
    rewrite (counts_floor ceil_count (fun _ _ _ _ _ _ => 0)).
    destruct (counts (fun _ _ _ _ _ _ => 0) false (w_kernel w) (w_stride w) (w_dilation w) b e ds) as [os|] eqn:EC; [|reflexivity].
    destruct (counts_length _ _ _ _ _ _ _ _ _ EC) as (Lo & _).
    apply tab_ext. intros idx Hi. inversion Hi as [|i ? idx1 ? Hin Hi1]; subst. inversion Hi1 as [|j ? o ? Hj Ho]; subst. f_equal.
    rewrite N.div_mul by lia. rewrite (bias_same B mo) by assumption. f_equal.
    destruct (group_index j mo group Hg Hm Hj) as (G1 & G2 & G3).
    apply sum_ext. intros ch Hch. apply upto_In in Hch. apply sum_ext. intros q Hq. apply indices_In in Hq.
    apply valid_len in Ho. assert (Lq := valid_len _ _ Hq).
    rewrite positions_strided by lia. rewrite (N.mul_comm cg).
    rewrite (pad_peek zero zero b e X xp n (cg * group) ds) by (assumption || lia || (rewrite strided_length by lia; lia) || (pose proof (below_mul group cg (j / (mo / group)) ch G1 Hch); lia)).
    f_equal. apply peek_elem. rewrite SW. repeat constructor; assumption.
  Qed.

  (** ConvTranspose *)
  Lemma tsizes_same ks : forall ss dl ps op ds, tout_sizes ks ss dl ps op ds = tsizes ks ss dl ps ps op ds.
  Proof.
    induction ks as [|k ks IH]; intros [|s ss] [|l dl] [|p ps] [|o op] [|d ds]; try reflexivity. cbn [tout_sizes tsizes]. rewrite IH. unfold extent.
    replace (l * (k - 1)) with ((k - 1) * l) by lia. replace ((d - 1) * s + ((k - 1) * l + 1) + o) with (s * (d - 1) + o + ((k - 1) * l + 1)) by lia.
    replace (2 * p) with (p + p) by lia. destruct ((s * (d - 1) + o + ((k - 1) * l + 1) <? p + p) || (d =? 0)); [reflexivity|]. destruct (tsizes ks ss dl ps ps op ds); reflexivity.
  Qed.
  Lemma tsizes_length ks : forall ss dl bs es op ds r, tsizes ks ss dl bs es op ds = Some r -> length r = length ks.
  Proof.
    induction ks as [|k ks IH]; intros [|s ss] [|l dl] [|b bs] [|e es] [|o op] [|d ds] r H; cbn in H; try discriminate; [injection H as <-; reflexivity|].
    destruct ((s * (d - 1) + o + extent k l <? b + e) || (d =? 0)); [discriminate|]. destruct (tsizes ks ss dl bs es op ds) as [r'|] eqn:E; [|discriminate]. injection H as <-. cbn. f_equal. eapply IH. exact E.
  Qed.
  Lemma lands_same ss : forall dl bs ps qs os, length dl = length ss -> length bs = length ss -> length ps = length ss -> length qs = length ss -> length os = length ss ->
    lands ss dl bs ps qs os = eqs (strided ss dl ps qs) (plus2 os bs).
  Proof.
    induction ss as [|s ss IH]; intros [|l dl] [|b bs] [|p ps] [|q qs] [|o os] H1 H2 H3 H4 H5; cbn [lands strided plus2 length] in *; try discriminate; [rewrite eqs_refl; reflexivity|].
    rewrite IH by lia. unfold eqs. destruct (list_eq_dec N.eq_dec (strided ss dl ps qs) (plus2 os bs)) as [E|E].
    - destruct (p * s + q * l =? o + b) eqn:Z; destruct (list_eq_dec N.eq_dec _ _) as [E'|E']; try reflexivity; exfalso.
      + apply E'. f_equal; [apply N.eqb_eq; exact Z|exact E].
      + assert (p * s + q * l = o + b) by congruence. lia.
    - rewrite andb_false_r. destruct (list_eq_dec N.eq_dec _ _) as [E'|E']; [|reflexivity]. exfalso. apply E. congruence.
  Qed.
  Lemma tconv_forward_ok ks ss dl ps op group X W B n c ds mg : twf X -> tshape X = n :: c :: ds -> tshape W = c :: mg :: ks ->
    0 < group -> c mod group = 0 -> bias_ok B (mg * group) ->
    tconv_forward add mul zero (mkTconvM c (mg * group) ks ss dl ps op group W B) X = onnx_conv_transpose add mul zero ss dl ps ps op group X W B.
  Proof.
    intros HX SX SW Hg Hc HB. unfold tconv_forward, onnx_conv_transpose. rewrite SX, SW. cbn [tm_in tm_out tm_kernel tm_stride tm_dilation tm_pad tm_pad_out tm_groups tm_weight tm_bias].
    rewrite N.eqb_refl, tsizes_same. destruct (tsizes ks ss dl ps ps op ds) as [os|] eqn:ES; [|reflexivity].
    assert (LL : length ss = length ks /\ length dl = length ks /\ length ps = length ks /\ length ds = length ks).
    { clear - ES. revert ss dl ps op ds os ES. induction ks as [|k ks IH]; intros [|s ss] [|l dl] [|p ps] [|o op] [|d ds] os H; cbn in H; try discriminate; [repeat split|].
      destruct ((s * (d - 1) + o + extent k l <? p + p) || (d =? 0)); [discriminate|]. destruct (tsizes ks ss dl ps ps op ds) as [r'|] eqn:E; [|discriminate]. destruct (IH _ _ _ _ _ _ E) as (A & B & C & D). cbn. lia. }
    destruct LL as (L1 & L2 & L3 & L4). pose proof (tsizes_length _ _ _ _ _ _ _ _ ES) as Lo.
    apply tab_ext. intros idx Hi. inversion Hi as [|i ? idx1 ? Hin Hi1]; subst. inversion Hi1 as [|j ? o ? Hj Ho]; subst. f_equal.
    rewrite (bias_same B (mg * group)) by assumption. f_equal. rewrite N.div_mul by lia.
    assert (Gm : 0 < mg) by nia. assert (Gj : j / mg < group) by (apply N.div_lt_upper_bound; lia).
    pose proof (N.div_mod c group ltac:(lia)) as Ec. rewrite Hc, N.add_0_r in Ec.
    apply sum_ext. intros ch Hch. apply upto_In in Hch. apply sum_ext. intros p Hp. apply indices_In in Hp. apply sum_ext. intros q Hq. apply indices_In in Hq.
    pose proof (valid_len _ _ Ho). pose proof (valid_len _ _ Hp). pose proof (valid_len _ _ Hq).
    rewrite lands_same by lia. rewrite (N.mul_comm (c / group)).
    assert (Hch2 : j / mg * (c / group) + ch < c) by (rewrite Ec at 2; apply below_mul; assumption).
    destruct (eqs (strided ss dl p q) (plus2 o ps)); [|reflexivity]. f_equal; apply peek_elem; [rewrite SX|rewrite SW]; repeat constructor; try assumption. apply N.mod_lt. lia.
  Qed.

  (** Pooling *)
  Lemma fold_filter {A} (g : T -> T -> T) (z : T) (P : A -> bool) (F : A -> T) l : (forall v, g z v = v) ->
    fold_right g z (map (fun q => if P q then F q else z) l) = fold_right g z (map F (filter P l)).
  Proof. intros Hz. induction l as [|q l IH]; [reflexivity|]. cbn. destruct (P q); cbn; rewrite IH; [reflexivity|apply Hz]. Qed.
  Lemma filter_map {A B} (P : B -> bool) (f : A -> B) l : filter P (map f l) = map f (filter (fun a => P (f a)) l).
  Proof. induction l as [|a l IH]; [reflexivity|]. cbn. destruct (P (f a)); cbn; rewrite IH; reflexivity. Qed.
  Lemma window_elems_fold (g : T -> T -> T) (z : T) w bs ds X i j o : (forall v, g z v = v) ->
    fold_right g z (window_elems zero w bs ds X i j o) =
    fold_right g z (map (fun q => let ps := positions (w_stride w) (w_dilation w) bs o q in if inside ds ps then elem zero X (i :: j :: map Z.to_N ps) else z) (indices (w_kernel w))).
  Proof. intros Hz. unfold window_elems. rewrite filter_map, map_map. symmetry. cbv zeta. rewrite (fold_filter g z (fun q => inside ds (positions (w_stride w) (w_dilation w) bs o q)) (fun q => elem zero X (i :: j :: map Z.to_N (positions (w_stride w) (w_dilation w) bs o q)))) by exact Hz. reflexivity. Qed.

  Lemma max_forward_ok (larger : T -> T -> T) (lowest : T) k w (ceil : bool) inc X n c ds pad : (forall v, larger lowest v = v) ->
    twf X -> tshape X = n :: c :: ds -> length ds = k ->
    length (w_kernel w) = k -> length (w_stride w) = k -> length (w_dilation w) = k -> (forall b e, w_pad w = Pads b e -> length b = k /\ length e = k) ->
    burn_padding k pad = pads_of w ds ->
    max_forward ceil_count larger lowest k (mkPoolM (w_kernel w) (w_stride w) (w_dilation w) pad ceil inc) X = onnx_max_pool zero larger lowest ceil_count ceil w X.
  Proof.
    intros Hz HX SX Lds Lk Ls Ll Lp Hpad. unfold max_forward, onnx_max_pool, pooling. rewrite SX. cbn [pm_kernel pm_stride pm_dilation pm_pad pm_ceil].
    rewrite Hpad. destruct (pads_length w ds k Lk Ls Ll Lds Lp) as [L1 L2]. destruct (pads_of w ds) as [b e]. cbn [fst snd] in L1, L2.
    destruct (pad_some lowest b e X n c ds HX SX ltac:(lia) ltac:(lia)) as [xp Hxp]. rewrite Hxp. rewrite out_sizes_counts.
    destruct (counts ceil_count ceil (w_kernel w) (w_stride w) (w_dilation w) b e ds) as [os|] eqn:EC; [|reflexivity].
    destruct (counts_length _ _ _ _ _ _ _ _ _ EC) as (Lo & _).
    apply tab_ext. intros idx Hi. inversion Hi as [|i ? idx1 ? Hin Hi1]; subst. inversion Hi1 as [|j ? o ? Hj Ho]; subst. f_equal.
    rewrite window_elems_fold by exact Hz. f_equal. apply map_ext_in. intros q Hq. apply indices_In in Hq. apply valid_len in Ho, Hq. cbv zeta.
    rewrite positions_strided by lia. apply (pad_peek lowest zero b e X xp n c ds); try assumption; try lia. rewrite strided_length by lia. lia.
  Qed.

  (** Floor mode: no window reaches beyond the padded input. *)
  Lemma floor_inside f ks : forall ss dl bs es ds os o q, counts f false ks ss dl bs es ds = Some os -> all_positive ks -> all_positive ss -> valid_idx os o -> valid_idx ks q ->
    inside_padded ds bs es (positions ss dl bs o q) = true.
  Proof.
    induction ks as [|k ks IH]; intros [|s ss] [|l dl] [|b bs] [|e es] [|d ds] os o q H Pk Ps Ho Hq; cbn in H; try discriminate; [injection H as <-; inversion Ho; subst; inversion Hq; subst; reflexivity|].
    destruct (b + d + e <? extent k l) eqn:Z; [discriminate|]. destruct (counts f false ks ss dl bs es ds) as [r|] eqn:E; [|discriminate]. injection H as <-.
    inversion Ho as [|o1 ? o2 ? Ho1 Ho2]; subst. inversion Hq as [|q1 ? q2 ? Hq1 Hq2]; subst. inversion Pk; subst. inversion Ps; subst.
    cbn [positions inside_padded]. rewrite (IH _ _ _ _ _ _ _ _ E) by assumption. rewrite andb_true_r.
    assert (A : o1 * s <= b + d + e - extent k l).
    { pose proof (N.mul_div_le (b + d + e - extent k l) s ltac:(lia)). assert (o1 <= (b + d + e - extent k l) / s) by lia. nia. }
    assert (Bq : q1 * l <= (k - 1) * l) by (apply N.mul_le_mono_r; lia). unfold extent in *. lia.
  Qed.
  Lemma filter_all {A} (P : A -> bool) l : (forall a, In a l -> P a = true) -> filter P l = l.
  Proof. induction l as [|a l IH]; intros H; [reflexivity|]. cbn. rewrite (H a) by (left; reflexivity). f_equal. apply IH. intros x Hx. apply H. right. exact Hx. Qed.

  Lemma avg_forward_ok (over : T -> N -> T) k w (inc : bool) X n c ds pad dl : (forall v, add zero v = v) ->
    twf X -> tshape X = n :: c :: ds -> length ds = k -> all_positive (w_kernel w) -> all_positive (w_stride w) ->
    length (w_kernel w) = k -> length (w_stride w) = k -> w_dilation w = repeat 1 k -> (forall b e, w_pad w = Pads b e -> length b = k /\ length e = k) ->
    burn_padding k pad = pads_of w ds ->
    avg_forward add zero ceil_count over k (mkPoolM (w_kernel w) (w_stride w) dl pad false inc) X = onnx_average_pool add zero over ceil_count false inc w X.
  Proof.
    intros Hz HX SX Lds Pk Ps Lk Ls Ed Lp Hpad. unfold avg_forward, onnx_average_pool, pooling. rewrite SX. cbn [pm_kernel pm_stride pm_dilation pm_pad pm_ceil pm_include_pad].
    assert (Ll : length (w_dilation w) = k) by (rewrite Ed, repeat_length; reflexivity).
    rewrite Hpad, <- Ed. destruct (pads_length w ds k Lk Ls Ll Lds Lp) as [L1 L2]. destruct (pads_of w ds) as [b e]. cbn [fst snd] in L1, L2.
    destruct (pad_some zero b e X n c ds HX SX ltac:(lia) ltac:(lia)) as [xp Hxp]. rewrite Hxp. rewrite out_sizes_counts.
    destruct (counts ceil_count false (w_kernel w) (w_stride w) (w_dilation w) b e ds) as [os|] eqn:EC; [|reflexivity].
    destruct (counts_length _ _ _ _ _ _ _ _ _ EC) as (Lo & _).
    apply tab_ext. intros idx Hi. inversion Hi as [|i ? idx1 ? Hin Hi1]; subst. inversion Hi1 as [|j ? o ? Hj Ho]; subst. cbv zeta. f_equal.
    assert (Lo' := valid_len _ _ Ho). f_equal.
    - rewrite window_elems_fold by exact Hz. unfold sum. f_equal. apply map_ext_in. intros q Hq. apply indices_In in Hq. apply valid_len in Hq. cbv zeta.
      rewrite positions_strided by lia. apply (pad_peek zero zero b e X xp n c ds); try assumption; try lia. rewrite strided_length by lia. lia.
    - destruct inc.
      + rewrite filter_all; [rewrite map_length, indices_length; lia|].
        intros ps Hps. apply in_map_iff in Hps. destruct Hps as (q & <- & Hq). apply indices_In in Hq. exact (floor_inside _ _ _ _ _ _ _ _ _ _ EC Pk Ps Ho Hq).
      + unfold window_elems. rewrite filter_map, !map_length. f_equal. f_equal. apply filter_ext_in. intros q Hq. apply indices_In in Hq. apply valid_len in Hq.
        rewrite positions_strided by lia. symmetry. apply inside_leq; rewrite strided_length by lia; lia.
  Qed.

  Lemma adaptive_one ds : forall o, valid_idx (map (fun _ => 1) ds) o -> adaptive (map (fun _ => 1) ds) o ds = map (fun d => (0, d)) ds.
  Proof.
    induction ds as [|d ds IH]; intros o Ho; inversion Ho as [|o1 ? o2 ? H1 H2]; subst; [reflexivity|]. cbn [map adaptive]. rewrite IH by assumption.
    assert (o1 = 0) by lia. subst o1. rewrite !N.div_1_r, N.mul_0_l, N.add_0_l, N.mul_1_l. do 2 f_equal. lia.
  Qed.
  Lemma plus2_zero (ds q : list N) : length q = length ds -> plus2 (map (fun _ => 0) ds) q = q.
  Proof. revert q. induction ds as [|d ds IH]; intros [|a q] H; cbn in *; try discriminate; try reflexivity. f_equal. apply IH. lia. Qed.
  Lemma adaptive_forward_ok (over : T -> N -> T) X n c ds : tshape X = n :: c :: ds -> adaptive_forward add zero over (map (fun _ => 1) ds) X = onnx_global_average_pool add zero over X.
  Proof.
    intros SX. unfold adaptive_forward, onnx_global_average_pool. rewrite SX, map_length, Nat.eqb_refl.
    apply tab_ext. intros idx Hi. inversion Hi as [|i ? idx1 ? Hin Hi1]; subst. inversion Hi1 as [|j ? o ? Hj Ho]; subst. cbv zeta. f_equal.
    rewrite adaptive_one by assumption. rewrite !map_map. cbn [fst snd]. rewrite map_id. f_equal. apply sum_ext. intros q Hq. apply indices_In in Hq.
    rewrite plus2_zero by (apply valid_len in Hq; exact Hq). apply peek_elem. rewrite SX. repeat constructor; assumption.
  Qed.
End Run.
