(** Proofs about the code emitted for Resize. *)
From Coq Require Import Lia ZifyBool ZifyNat ZifyN Lra.
From Verif Require Import Tensor_Proofs Resize_Model.
Import Resize_Spec Tensor_Spec.
Local Open Scope N_scope.

(** ** Rounding *)
Lemma rfloor_unique (x : R) (z : Z) : (IZR z <= x < IZR z + 1)%R -> rfloor x = z.
Proof.
  intros [H1 H2]. unfold rfloor. destruct (base_Int_part x) as [A B]. apply Z.le_antisymm.
  - apply Zlt_succ_le. apply lt_IZR. rewrite succ_IZR. lra.
  - apply Zlt_succ_le. apply lt_IZR. rewrite succ_IZR. lra.
Qed.
Lemma rfloor_spec x : (IZR (rfloor x) <= x < IZR (rfloor x) + 1)%R.
Proof. unfold rfloor. destruct (base_Int_part x). split; lra. Qed.
Lemma rfloor_div a b : (0 < b)%Z -> rfloor (IZR a / IZR b) = (a / b)%Z.
Proof.
  intros Hb. assert (Pb : (0 < IZR b)%R) by (apply IZR_lt; exact Hb). pose proof (Z.div_mod a b ltac:(lia)) as D. pose proof (Z.mod_pos_bound a b Hb) as M.
  assert (E : IZR a = (IZR b * IZR (a / b) + IZR (a mod b))%R) by (rewrite <- mult_IZR, <- plus_IZR; f_equal; exact D).
  assert (M1 : (0 <= IZR (a mod b))%R) by (apply IZR_le; lia). assert (M2 : (IZR (a mod b) < IZR b)%R) by (apply IZR_lt; lia).
  apply rfloor_unique. split.
  - apply (Rmult_le_reg_r (IZR b)); [exact Pb|]. unfold Rdiv. rewrite Rmult_assoc, Rinv_l, Rmult_1_r by lra. rewrite E. lra.
  - apply (Rmult_lt_reg_r (IZR b)); [exact Pb|]. unfold Rdiv. rewrite Rmult_assoc, Rinv_l, Rmult_1_r by lra. rewrite E. lra.
Qed.
Lemma r_pos n : 0 < n -> (0 < r_of n)%R.
Proof. intros H. apply IZR_lt. lia. Qed.
Lemma r_nonneg n : (0 <= r_of n)%R.
Proof. apply IZR_le. lia. Qed.
Lemma inside_N l z : (0 <= z)%Z -> inside l z = N.min (Z.to_N z) (l - 1).
Proof. intros H. unfold inside. lia. Qed.

(** ** One axis *)
Definition align_of (q : request) : bool := String.eqb (q_coord q) "align_corners".
Lemma half_point a x : 0 < a_in a -> 0 < a_out a -> a_scale a = (r_of (a_out a) / r_of (a_in a))%R -> half_pixel a x = b_point false (a_in a) (a_out a) x.
Proof.
  intros Hi Ho E. unfold half_pixel, b_point. rewrite E. pose proof (r_pos _ Hi). pose proof (r_pos _ Ho). field. split; lra.
Qed.
Lemma point_eq q a x : supported q a -> spread q a -> original q a x = b_point (align_of q) (a_in a) (a_out a) x.
Proof.
  intros (Hi & Ho & E & _) B. unfold original, align_of. destruct B as [-> | [[-> H1] | ->]]; cbn [String.eqb Ascii.eqb Bool.eqb].
  - apply half_point; assumption.
  - replace (a_out a =? 1) with false by lia. apply half_point; assumption.
  - reflexivity.
Qed.
Lemma point_low (align : bool) l o x : 0 < l -> 0 < o -> (-1 < b_point align l o x)%R.
Proof.
  intros Hl Ho. unfold b_point. pose proof (r_nonneg x). destruct align.
  - destruct (N.eqb_spec o 1); [lra|]. assert (1 <= r_of l)%R by (apply IZR_le; lia). assert (1 < r_of o)%R by (apply IZR_lt; lia).
    assert (0 <= r_of x * (r_of l - 1) / (r_of o - 1))%R; [|lra]. apply Rmult_le_pos; [apply Rmult_le_pos; lra|]. left. apply Rinv_0_lt_compat. lra.
  - pose proof (r_pos _ Hl). pose proof (r_pos _ Ho). assert (0 <= (r_of x + / 2) * r_of l / r_of o)%R; [|lra]. apply Rmult_le_pos; [apply Rmult_le_pos; lra|]. left. apply Rinv_0_lt_compat. lra.
Qed.
Lemma half_floor x k : 0 < k -> ((2 * Z.of_N x + 1) / (2 * Z.of_N k))%Z = Z.of_N (x / k).
Proof.
  intros Hk. symmetry. apply (Z.div_unique _ _ _ (2 * Z.of_N (x mod k) + 1)%Z).
  - pose proof (N.mod_lt x k ltac:(lia)). lia.
  - pose proof (N.div_mod x k ltac:(lia)). lia.
Qed.
Lemma half_ceil x k : 0 < k -> (- ((2 * Z.of_N k - 2 * Z.of_N x - 1) / (2 * Z.of_N k)))%Z = Z.of_N (x / k).
Proof.
  intros Hk. pose proof (N.mod_lt x k ltac:(lia)) as M. pose proof (N.div_mod x k ltac:(lia)) as D.
  rewrite <- (Z.opp_involutive (Z.of_N (x / k))). f_equal. symmetry. apply (Z.div_unique _ _ _ (2 * Z.of_N k - 2 * Z.of_N (x mod k) - 1)%Z); [|nia]. left. lia.
Qed.
Lemma nearest_ok q a x : supported q a -> q_mode q = Nearest -> x < a_out a -> inside (a_in a) (rounded q (original q a x)) = x * a_in a / a_out a.
Proof.
  intros (Hi & Ho & E & S) Em Hx. rewrite Em in S. pose proof (r_pos _ Hi) as Pi. pose proof (r_pos _ Ho) as Po.
  assert (L : forall z, z = Z.of_N (x * a_in a / a_out a) -> inside (a_in a) z = x * a_in a / a_out a).
  { intros z ->. assert (x * a_in a / a_out a < a_in a) by (apply N.div_lt_upper_bound; [lia|]; apply N.mul_lt_mono_pos_r; assumption). generalize dependent (x * a_in a / a_out a). intros z Hz. unfold inside. lia. }
  apply L. destruct S as [[Ec Er] | (Ec & Er & k & Ek)].
  - unfold original, rounded. rewrite Ec, Er. cbn [String.eqb Ascii.eqb Bool.eqb]. rewrite E. replace (r_of x / (r_of (a_out a) / r_of (a_in a)))%R with (IZR (Z.of_N (x * a_in a)) / IZR (Z.of_N (a_out a)))%R.
    + rewrite rfloor_div by lia. rewrite N2Z.inj_div. reflexivity.
    + rewrite N2Z.inj_mul, mult_IZR. fold (r_of x) (r_of (a_in a)) (r_of (a_out a)). field. split; lra.
  - assert (Hk : 0 < k) by nia. assert (EA : x * a_in a / a_out a = x / k) by (rewrite Ek; apply N.div_mul_cancel_r; lia). rewrite EA.
    assert (Ex : original q a x = ((2 * r_of x + 1) / (2 * r_of k) - /2)%R).
    { unfold original. rewrite Ec. cbn [String.eqb Ascii.eqb Bool.eqb]. unfold half_pixel. rewrite E, Ek. unfold r_of at 2. rewrite N2Z.inj_mul, mult_IZR. fold (r_of k) (r_of (a_in a)). pose proof (r_pos _ Hk). field. split; lra. }
    pose proof (r_pos _ Hk) as Pk. unfold rounded. rewrite Ex. destruct Er as [-> | ->]; cbn [String.eqb Ascii.eqb Bool.eqb].
    + unfold rceil. fold (rfloor (- ((2 * r_of x + 1) / (2 * r_of k) - / 2 - / 2))).
      replace (- ((2 * r_of x + 1) / (2 * r_of k) - / 2 - / 2))%R with (IZR (2 * Z.of_N k - 2 * Z.of_N x - 1) / IZR (2 * Z.of_N k))%R.
      * rewrite rfloor_div by lia. apply half_ceil. exact Hk.
      * rewrite !minus_IZR, !mult_IZR. fold (r_of k) (r_of x). field. lra.
    + replace ((2 * r_of x + 1) / (2 * r_of k) - / 2 + / 2)%R with (IZR (2 * Z.of_N x + 1) / IZR (2 * Z.of_N k))%R.
      * rewrite rfloor_div by lia. apply half_floor. exact Hk.
      * rewrite plus_IZR, !mult_IZR. fold (r_of k) (r_of x). field. lra.
Qed.
Lemma taps_ok q a x f : supported q a -> x < a_out a -> weigh (taps q a x) f = weigh (b_taps (q_mode q) (align_of q) (a_in a) (a_out a) x) f.
Proof.
  intros S Hx. unfold taps, b_taps. destruct (q_mode q) eqn:Em.
  - rewrite nearest_ok by assumption. reflexivity.
  - assert (B : spread q a) by (destruct S as (_ & _ & _ & B); rewrite Em in B; exact B). rewrite (point_eq q a x S B). set (c := b_point _ _ _ _).
    destruct S as (Hi & Ho & _). pose proof (point_low (align_of q) _ _ x Hi Ho) as L. fold c in L. unfold weigh. cbn [fold_right fst snd]. destruct (Rle_lt_dec 0 c) as [H0|H0].
    + rewrite Rmax_right by exact H0. assert (F : (0 <= rfloor c)%Z). { pose proof (rfloor_spec c). apply Zlt_succ_le. apply lt_IZR. rewrite succ_IZR. lra. }
      rewrite !inside_N by lia. reflexivity.
    + rewrite Rmax_left by lra. assert (F : rfloor c = (-1)%Z) by (apply rfloor_unique; cbn; lra). rewrite F. replace (rfloor 0) with 0%Z by (symmetry; apply rfloor_unique; cbn; lra).
      replace (inside (a_in a) (-1)) with 0%N by (unfold inside; lia). replace (inside (a_in a) (-1 + 1)) with 0%N by (unfold inside; lia).
      cbn [Z.to_N]. rewrite N.min_0_l. rewrite Rminus_0_r. ring.
  - destruct (S) as (_ & _ & _ & B). rewrite Em in B. destruct B as [B Ea]. rewrite (point_eq q a x S B), Ea. reflexivity.
Qed.
Lemma weigh_ext l f g : (forall i, f i = g i) -> weigh l f = weigh l g.
Proof. intros H. unfold weigh. induction l as [|a l IH]; cbn; [reflexivity|]. rewrite H, IH. reflexivity. Qed.
Lemma blend_ok q axes pos f : Forall (supported q) axes -> valid_idx (map a_out axes) pos ->
  blend (map (taps q) axes) pos f = blend (map (fun lo => b_taps (q_mode q) (align_of q) (fst lo) (snd lo)) (combine (map a_in axes) (map a_out axes))) pos f.
Proof.
  intros S. revert pos f. induction S as [|a axes Ha S IH]; intros pos f V; cbn [map combine blend fst snd]; [reflexivity|]. destruct pos as [|x pos]; [reflexivity|]. inversion V as [|? ? ? ? Hx V']; subst.
  rewrite (taps_ok q a x _ Ha Hx). apply weigh_ext. intros i. apply IH. exact V'.
Qed.
Lemma interpolate_ok q axes b c (X : rt) : Forall (supported q) axes -> tshape X = b :: c :: map a_in axes ->
  b_interpolate (q_mode q) (align_of q) (map a_out axes) X = Some (onnx_resize q axes X).
Proof.
  intros S E. unfold b_interpolate, onnx_resize. rewrite E. rewrite !map_length, Nat.eqb_refl. f_equal. unfold mk. f_equal. apply map_ext_in. intros idx Hi. apply indices_In in Hi.
  inversion Hi as [|i ? ? r ? H1]; subst. inversion H1 as [|j ? ? pos ? H2]; subst. symmetry. apply blend_ok; assumption.
Qed.

(** ** Import *)
Lemma mode_parsed m : parse_mode (mode_name m) = Some m.
Proof. destruct m; reflexivity. Qed.
Lemma str_read n key d s : string_of n key d = Some s -> str_attr n key d = IOk s.
Proof. unfold string_of, str_attr. destruct (get_attr n key) as [[]|]; intros H; inversion H; reflexivity. Qed.
Lemma opt_is a : asrc a = VOptional -> is_optional a = true.
Proof. unfold is_optional. intros ->. reflexivity. Qed.
Lemma opt_not a : asrc a <> VOptional -> is_optional a = false.
Proof. unfold is_optional. destruct (asrc a); congruence || reflexivity. Qed.
Lemma usize_map l : Forall (fun d => d < 2 ^ 63) l -> map to_usize (map Z.of_N l) = l.
Proof.
  induction 1 as [|d l Hd _ IH]; cbn [map]; [reflexivity|]. rewrite IH. f_equal. unfold to_usize. rewrite Z.mod_small by lia. lia.
Qed.
(** What the configuration holds. *)
Definition conf_scales (w : want) (dyn : option rval) : option (known (list R)) :=
  match w with ByScales l => Some (match dyn with None => Static (skipn 2 l) | Some _ => Runtime 2 end) | BySizes _ => None end.
Definition conf_sizes (w : want) (dyn : option rval) : option (known (list N)) :=
  match w with BySizes l => Some (match dyn with None => Static (skipn 2 l) | Some _ => Runtime 3 end) | ByScales _ => None end.
Definition want_ok (w : want) (rank : N) : Prop :=
  match w with BySizes l => l <> [] /\ N.of_nat (length l) = rank /\ Forall (fun d => d < 2 ^ 63) l | ByScales l => l <> [] /\ N.of_nat (length l) = rank end.
Lemma config_ok value opset n t q w dyn : 11 <= opset -> resize_node value n t w dyn -> resize_options n q -> want_ok w (tt_rank t) ->
  resize_config value opset n = IOk (mkRC (q_mode q) (conf_scales w dyn) (conf_sizes w dyn) (q_coord q)).
Proof.
  intros Ho (x & roi & rest & Ei & Ex & _ & Hw) (Hm & Hc & Hr & Ha & _) W. unfold resize_config. rewrite Ei, Ex, Hm, mode_parsed. cbn [ibind]. replace (opset <? 11) with false by lia.
  rewrite (str_read _ _ _ _ Hc), (str_read _ _ _ _ Hr). cbn [ibind].
  replace (match get_attr n "cubic_coeff_a" with None | Some (AFloat _) => IOk tt | Some _ => IPanic end) with (IOk tt) by (destruct (get_attr n "cubic_coeff_a") as [[]|]; try contradiction; reflexivity). cbn [ibind].
  destruct w as [l|l]; cbn [want_ok] in W.
  - destruct Hw as (e & a & -> & He & Na & Hd). assert (SC : scales_input value n (tt_rank t) 2 = IOk None).
    { unfold scales_input. rewrite Ei. cbn [nth_error]. destruct He as [He | (u & Hu & Hv)]; [rewrite (opt_is e He); reflexivity|]. destruct (is_optional e); [reflexivity|]. rewrite Hu, Hv. reflexivity. }
    rewrite SC. cbn [ibind]. assert (SZ : sizes_input value n (tt_rank t) 3 = IOk (conf_sizes (BySizes l) dyn)).
    { unfold sizes_input. rewrite Ei. cbn [nth_error]. rewrite (opt_not a Na). destruct W as (Nl & Ll & Fl). destruct dyn as [v|].
      - destruct Hd as (Hv & _ & Ht). rewrite Hv. destruct v; destruct Ht as (k & ->); reflexivity.
      - destruct Hd as ((u & ->) & ->). cbn [fixed]. rewrite map_length. destruct l as [|d l]; [contradiction|]. rewrite Ll, N.eqb_refl. rewrite usize_map by exact Fl. reflexivity. }
    rewrite SZ. reflexivity.
  - destruct Hw as (a & more & -> & (Na & Hd) & Hmore). assert (SC : scales_input value n (tt_rank t) 2 = IOk (conf_scales (ByScales l) dyn)).
    { unfold scales_input. rewrite Ei. cbn [nth_error]. rewrite (opt_not a Na). destruct W as (Nl & Ll). destruct dyn as [v|].
      - destruct Hd as (Hv & _ & Ht). rewrite Hv. destruct v; destruct Ht as (k & ->); reflexivity.
      - destruct Hd as ((u & ->) & ->). cbn [fixed]. destruct l as [|d l]; [contradiction|]. rewrite Ll, N.eqb_refl. reflexivity. }
    rewrite SC. cbn [ibind]. assert (SZ : sizes_input value n (tt_rank t) 3 = IOk None).
    { unfold sizes_input. rewrite Ei. destruct Hmore as [-> | (b & -> & Hb)]; cbn [nth_error]; [reflexivity|]. rewrite (opt_is b Hb). reflexivity. }
    rewrite SZ. reflexivity.
Qed.
Lemma infer_ok value opset n t q w dyn : 11 <= opset -> resize_node value n t w dyn -> resize_options n q -> want_ok w (tt_rank t) ->
  infer_resize value opset n = IOk (TensorT t).
Proof.
  intros Ho Hn Hq W. pose proof (config_ok value opset n t q w dyn Ho Hn Hq W) as C. destruct Hn as (x & roi & rest & Ei & Ex & Hroi & _). destruct Hq as (_ & _ & _ & _ & Hx & K1 & K2 & K3 & K4).
  unfold infer_resize, checked. unfold keeps in *. rewrite Hx.
  replace (match get_attr n "antialias" with None => IOk tt | Some a => ibind (int_zero a) (fun ok : bool => if ok then IOk tt else IErr) end) with (IOk tt) by (destruct (get_attr n "antialias"); [rewrite K1|]; reflexivity). cbn [ibind].
  replace (match get_attr n "exclude_outside" with None => IOk tt | Some a => ibind (int_zero a) (fun ok : bool => if ok then IOk tt else IErr) end) with (IOk tt) by (destruct (get_attr n "exclude_outside"); [rewrite K2|]; reflexivity). cbn [ibind].
  replace (match get_attr n "extrapolation_value" with None => IOk tt | Some a => ibind (float_zero a) (fun ok : bool => if ok then IOk tt else IErr) end) with (IOk tt)
    by (destruct (get_attr n "extrapolation_value"); [destruct K3 as (z & -> & Hz); cbn [float_zero ibind]; rewrite Hz|]; reflexivity). cbn [ibind].
  replace (match get_attr n "keep_aspect_ratio_policy" with None => IOk tt | Some a => ibind (is_stretch a) (fun ok : bool => if ok then IOk tt else IErr) end) with (IOk tt) by (destruct (get_attr n "keep_aspect_ratio_policy"); [rewrite K4|]; reflexivity). cbn [ibind].
  replace (11 <=? opset) with true by lia. rewrite Ei. cbn [nth_error]. replace (match value roi with Some (CF []) | None => IOk tt | Some (CF _) => IErr | Some _ => IPanic end) with (IOk tt) by (destruct Hroi as [-> | ->]; reflexivity). cbn [ibind].
  rewrite C. cbn [rc_scales rc_sizes]. rewrite Ex. destruct w; reflexivity.
Qed.
Lemma asks_ok w s axes : asks w s axes -> exists b c, s = b :: c :: map a_in axes /\ want_ok w (N.of_nat (length s)) /\
  match w with BySizes l => l = b :: c :: map a_out axes | ByScales l => exists o, l = 1%R :: 1%R :: o /\ length o = length axes /\ map a_out axes = map (fun ls => scaled (fst ls) (snd ls)) (combine (map a_in axes) o) end.
Proof.
  intros (b & c & sp & -> & H). exists b, c. destruct w as [l|l].
  - destruct H as (o & -> & L & F & ->). assert (E : map a_in (map (fun lo : N * N => axis_of_size (fst lo) (snd lo)) (combine sp o)) = sp /\ map a_out (map (fun lo : N * N => axis_of_size (fst lo) (snd lo)) (combine sp o)) = o).
    { clear F. rewrite !map_map. cbn [axis_of_size a_in a_out]. revert o L. induction sp as [|d sp IH]; intros [|e o] L; try discriminate; [split; reflexivity|]. injection L as L. destruct (IH o L) as [E1 E2]. cbn. rewrite E1, E2. split; reflexivity. }
    destruct E as [-> ->]. split; [reflexivity|]. split; [|reflexivity]. split; [discriminate|]. split; [cbn [length]; rewrite L; reflexivity|exact F].
  - destruct H as (o & -> & L & ->). assert (E : map a_in (map (fun lo : N * R => axis_of_scale (fst lo) (snd lo)) (combine sp o)) = sp).
    { rewrite map_map. cbn [axis_of_scale a_in]. revert o L. induction sp as [|d sp IH]; intros [|e o] L; try discriminate; [reflexivity|]. injection L as L. cbn. rewrite (IH o L). reflexivity. }
    rewrite E. split; [reflexivity|]. split; [split; [discriminate|cbn [length]; rewrite L; reflexivity]|]. exists o. split; [reflexivity|]. split; [rewrite map_length, combine_length; lia|].
    rewrite map_map. reflexivity.
Qed.
(** ** The code *)
Lemma code_ok value opset n t q w dyn axes (X : rt) : 11 <= opset -> resize_node value n t w dyn -> resize_options n q -> asks w (tshape X) axes -> tt_rank t = N.of_nat (length (tshape X)) ->
  length (tshape X) = 4%nat \/ (length (tshape X) = 3%nat /\ dyn = None) ->
  exists c code, resize_config value opset n = IOk c /\ infer_resize value opset n = IOk (TensorT t) /\ gen_resize c n = Some code /\
    run_resize code dyn X = b_interpolate (q_mode q) (align_of q) (map a_out axes) X.
Proof.
  intros Ho Hn Hq Ha Hr Hl. destruct (asks_ok _ _ _ Ha) as (b & c & Es & W & Hw). rewrite <- Hr in W.
  pose proof (config_ok _ _ _ _ _ _ _ Ho Hn Hq W) as C. pose proof (infer_ok _ _ _ _ _ _ _ Ho Hn Hq W) as I. clear Ha.
  assert (Lr : length (tshape X) = S (S (length axes))) by (rewrite Es; cbn [length]; rewrite map_length; reflexivity).
  destruct Hn as (x & roi & rest & Ei & Ex & _ & Hw2). eexists. unfold gen_resize. rewrite Ei, Ex. destruct w as [l|l].
  - destruct Hw2 as (e & a & -> & _ & _ & Hd). destruct dyn as [v|].
    + destruct Hl as [Hl|[_ ?]]; [|discriminate]. destruct axes as [|a1 [|a2 [|a3 axes]]]; cbn [length] in Lr; try lia. destruct Hd as (Hv & Hc & Ht).
      assert (U : Forall (fun d => d < 2 ^ 63) l) by apply W. rewrite Hw in U. inversion U as [|? ? _ U1]; subst. inversion U1 as [|? ? _ U2]; subst. pose proof (usize_map _ U2) as E. cbn [map] in E. injection E as E1 E2.
      destruct v as [m|m|m]; try contradiction; destruct Ht as (k & Ht); eexists; (split; [exact C|]); (split; [exact I|]); cbn [rc_sizes rc_scales conf_sizes conf_scales nth_error option_map rc_mode rc_coord]; rewrite Ht; (split; [reflexivity|]);
        cbn [carries] in Hc; subst m; cbn [run_resize]; rewrite Es; cbn [map]; rewrite E1, E2; reflexivity.
    + destruct Hl as [Hl|[Hl _]]; destruct axes as [|a1 [|a2 [|a3 axes]]]; cbn [length] in Lr; try lia; eexists; (split; [exact C|]); (split; [exact I|]);
        cbn [rc_sizes rc_scales conf_sizes conf_scales rc_mode rc_coord]; rewrite Hr, Hl; subst l; (split; [cbn; reflexivity|]); cbn [run_resize]; reflexivity.
  - destruct Hw2 as (a & more & -> & (_ & Hd) & _). destruct Hw as (o & -> & Lo & Eo). rewrite Eo. destruct dyn as [v|].
    + destruct Hl as [Hl|[_ ?]]; [|discriminate]. destruct axes as [|a1 [|a2 [|a3 axes]]]; cbn [length] in Lr; try lia. destruct o as [|s1 [|s2 [|s3 o]]]; try discriminate. destruct Hd as (Hv & Hc & Ht).
      destruct v as [m|m|m]; try contradiction; destruct Ht as (k & Ht); eexists; (split; [exact C|]); (split; [exact I|]); cbn [rc_sizes rc_scales conf_sizes conf_scales nth_error option_map rc_mode rc_coord]; rewrite Ht; (split; [reflexivity|]);
        cbn [carries] in Hc.
      * subst m. cbn [run_resize]. rewrite Es. reflexivity.
      * cbn [run_resize]. rewrite Es, <- Hc. reflexivity.
    + destruct Hl as [Hl|[Hl _]]; destruct axes as [|a1 [|a2 [|a3 axes]]]; cbn [length] in Lr; try lia; destruct o as [|s1 [|s2 [|s3 o]]]; try discriminate; eexists; (split; [exact C|]); (split; [exact I|]);
        cbn [rc_sizes rc_scales conf_sizes conf_scales rc_mode rc_coord]; rewrite Hr, Hl; (split; [reflexivity|]); cbn [firstn skipn Nat.leb length run_resize]; rewrite Es; reflexivity.
Qed.

(** ** Reading a result *)
Lemma rd_mk s f idx : valid_idx s idx -> rd (mk s f) idx = f idx.
Proof. intros V. unfold rd, mk, get. cbn [tshape tdata]. rewrite nth_error_map, indices_offset by exact V. reflexivity. Qed.
Lemma rd_onnx q a l X x : tshape X = [1; 1; l] -> x < a_out a -> rd (onnx_resize q [a] X) [0; 0; x] = weigh (taps q a x) (fun i => rd X [0; 0; i]).
Proof.
  intros E Hx. unfold onnx_resize. rewrite E, rd_mk; [reflexivity|]. repeat constructor; lia.
Qed.
Lemma rd_burn m al l o X x : tshape X = [1; 1; l] -> x < o -> exists Y, b_interpolate m al [o] X = Some Y /\ tshape Y = [1; 1; o] /\ rd Y [0; 0; x] = weigh (b_taps m al l o x) (fun i => rd X [0; 0; i]).
Proof.
  intros E Hx. unfold b_interpolate. rewrite E. cbn [length Nat.eqb]. eexists. split; [reflexivity|]. split; [reflexivity|]. rewrite rd_mk; [reflexivity|]. repeat constructor; lia.
Qed.
