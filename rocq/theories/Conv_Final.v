(** Nodes for convolutions and pooling: what is accepted and what the code computes. *)
From Verif Require Export Conv_Run.
From Verif Require Import Tensor_Proofs Import_Model Linear_Model Linear_Proofs ImportForm_Proofs.
From Coq Require Import Lia ZifyBool ZifyNat ZifyN.
Import Conv_Spec Tensor_Spec.
Local Open Scope N_scope.

Lemma known_all l : all_some (map Some l) = Some (l : list N).
Proof. induction l as [|d l IH]; [reflexivity|]. cbn. rewrite IH. reflexivity. Qed.
Lemma fits_static ty s l : Shapes_Spec.fits ty s -> static_shape_known ty = Some l -> l = s.
Proof.
  intros Hf H. destruct ty as [| |t|]; cbn in H; try discriminate. destruct Hf as [_ Hf]. destruct (tt_shape t) as [o|]; [|discriminate]. specialize (Hf o eq_refl).
  apply all_some_spec in H. subst o. clear t. revert s Hf. induction l as [|d l IH]; intros s Hf; inversion Hf as [|? d' ? s' [?|E] Hf']; subst; try discriminate; [reflexivity|].
  injection E as ->. f_equal. apply IH. exact Hf'.
Qed.
Lemma known_static a s : shape_known a s -> static_shape_known (aty a) = Some s.
Proof. intros (t & Ht & Hs). unfold static_shape_known. rewrite Ht, Hs. apply known_all. Qed.

Section Final.
  Context {T : Type} (add mul : T -> T -> T) (zero : T) (ceil_count : N -> N -> N -> N -> N -> N -> N) (value : arg -> option (tensor T)) (e : string -> option (tensor T)).

  Lemma snapshot_of a t : constant_is value a t -> snapshot value a = Some t.
  Proof. intros (Hv & _ & ty & Ha). unfold snapshot. rewrite Ha. exact Hv. Qed.
  Lemma load_bias_ok n W B m B' : weights_are value n W B -> load_bias value n m = IOk B' -> B' = B.
  Proof.
    intros (x & w & bs & Hn & _ & Hb) H. unfold load_bias in H. rewrite Hn in H. destruct bs as [|b [|]]; [congruence| |contradiction].
    destruct Hb as (t & -> & Hc). rewrite (snapshot_of _ _ Hc) in H. destruct (eqs (tshape t) [m]); congruence.
  Qed.
  Lemma forward_is n X f s : input_is e n X -> output_name n s -> forward_with e n f = option_map (pair s) (f X).
  Proof. intros (x & ins & Hn & He & _) (o & r & Ho & <-). unfold forward_with. rewrite Hn, Ho, He. reflexivity. Qed.

  Lemma conv_module_ok k n X W B w group m : (1 <= k)%nat -> input_is e n X -> weights_are value n W B -> window_attrs k n w -> int_attr n "group" 1 group ->
    conv_shapes k group (w_kernel w) X W B -> conv_module value k n = IOk m ->
    conv_forward add mul zero ceil_count k m X = onnx_conv add mul zero w group X W B.
  Proof.
    intros K HX HW Ha Hg (nb & cg & mo & ds & SX & Lds & SW & Gg & Gm & HB) H. unfold conv_module in H.
    destruct (conv_config (shapes value) k n) as [c| |] eqn:Ec; cbn [ibind iexpect] in H; try discriminate.
    destruct HX as (x & ins & Hn & He & WX & Fx). pose proof HW as (x' & wa & bs & Hn' & (Hv & WW & ty & Hty) & _). rewrite Hn in Hn'. injection Hn' as <- ->. rewrite Hn in H.
    destruct (static_shape_known (aty wa)) as [[|s0 [|s1 sr]]|] eqn:Es; try discriminate.
    destruct (conv_config_ok (shapes value) k n w c wa (mkC (tshape W) F32 None) Ha K) as (C1 & C2 & C3 & C4 & C5 & C6); [rewrite Hn; reflexivity|unfold shapes; rewrite Hv; reflexivity|cbn; rewrite SW; reflexivity|exact Ec|].
    rewrite (C5 _ Hg (proj2 Gg)) in H. rewrite C1, C2, C3 in H.
    destruct (input_spatial n) as [sp| |] eqn:Esp; cbn [ibind] in H; try discriminate.
    destruct (resolve_auto_pad (cc_auto c) (cc_begin c) (cc_end c) sp (w_kernel w) (w_stride w) (w_dilation w)) as [p| |] eqn:Er; cbn [ibind] in H; try discriminate.
    destruct (padding_tokens k p) as [pad| |] eqn:Et; cbn [ibind] in H; try discriminate. cbv zeta in H.
    destruct ((group =? 0) || negb ((s1 * group) mod group =? 0) || negb (s0 mod group =? 0)); [discriminate|].
    rewrite (snapshot_of wa W) in H by (split; [exact Hv|split; [exact WW|exists ty; exact Hty]]).
    destruct (eqs (tshape W) (s0 :: s1 * group / group :: w_kernel w)) eqn:Eq; [|discriminate]. apply eqs_true in Eq. rewrite SW in Eq. rewrite N.div_mul in Eq by lia. injection Eq as <- <-.
    destruct (load_bias value n mo) as [B'| |] eqn:Eb; cbn [ibind] in H; try discriminate. rewrite (load_bias_ok _ _ _ _ _ HW Eb) in H. injection H as <-.
    destruct Ha as ((Lk & _) & (Ls & _ & _ & _ & Ll & _) & _).
    apply (conv_forward_ok add mul zero ceil_count k w group X W B nb (cg * group) ds mo cg pad); try assumption; try reflexivity; try lia.
    eapply resolve_ok; try eassumption. apply (input_spatial_ok n x _ (tshape X) ds sp Hn); [intros l Hl; exact (fits_static _ _ _ Fx Hl)|exists nb, (cg * group); exact SX|exact Esp].
  Qed.

  (** ** What is accepted *)
  Lemma auto_pads_accept auto : auto = SameUpper \/ auto = SameLower -> forall ks ss dl ds, length ds = length ks -> all_positive ks -> all_positive ss -> all_positive ds ->
    exists p, compute_auto_pads auto ds ks ss dl = IOk p.
  Proof.
    intros Ha. induction ks as [|k ks IH]; intros ss dl [|d ds] H3 P1 P2 P3; cbn in H3; try discriminate; [eexists; reflexivity|].
    destruct ss as [|s ss]; [eexists; reflexivity|]. destruct dl as [|l dl]; [eexists; reflexivity|].
    inversion P1; inversion P2; inversion P3; subst. destruct (IH ss dl ds ltac:(lia) ltac:(assumption) ltac:(assumption) ltac:(assumption)) as [p Hp].
    cbn [compute_auto_pads]. rewrite Hp. unfold compute_auto_pad_1dim. replace ((k =? 0) || (s =? 0) || (d =? 0)) with false by lia. destruct Ha as [-> | ->]; cbn [ibind]; eexists; reflexivity.
  Qed.
  Lemma padding_accept k n w s : window_attrs k n w -> padding_static k n w s ->
    exists pads pad auto, attr_i64s_or n "pads" (repeat 0%Z (2 * k)) = IOk pads /\ padding_config k pads = IOk pad /\ auto_of n = IOk auto.
  Proof.
    intros (_ & _ & Hp) (H1 & H2 & _). destruct (w_pad w) as [b e'| | |] eqn:Ew.
    - pose proof Hp as Hp'. unfold padding_attr in Hp. destruct Hp as (Hn & Lb & Le & Ib & Ie & Hi). exists (map Z.of_N (b ++ e')), (b, e'), NotSet.
      change 0%Z with (Z.of_N 0). rewrite repeat_map. rewrite (ints_read _ _ _ _ Hi). rewrite padding_read by assumption. split; [reflexivity|]. split; [reflexivity|].
      unfold auto_of. destruct Hn as [-> | ->]; reflexivity.
    - exists (map Z.of_N (repeat 0 k ++ repeat 0 k)), (repeat 0 k, repeat 0 k), SameUpper. cbn in Hp. unfold auto_of, attr_i64s_or. destruct (H1 (or_introl eq_refl)) as [-> _]. rewrite Hp.
      rewrite <- repeat_app, <- repeat_map. split; [do 2 f_equal; lia|]. split; [|reflexivity]. rewrite repeat_map, repeat_app. apply padding_read; try apply repeat_length; apply Forall_forall; intros v Hv; apply repeat_spec in Hv; subst v; reflexivity.
    - exists (map Z.of_N (repeat 0 k ++ repeat 0 k)), (repeat 0 k, repeat 0 k), SameLower. cbn in Hp. unfold auto_of, attr_i64s_or. destruct (H1 (or_intror eq_refl)) as [-> _]. rewrite Hp.
      rewrite <- repeat_app, <- repeat_map. split; [do 2 f_equal; lia|]. split; [|reflexivity]. rewrite repeat_map, repeat_app. apply padding_read; try apply repeat_length; apply Forall_forall; intros v Hv; apply repeat_spec in Hv; subst v; reflexivity.
    - exists (map Z.of_N (repeat 0 k ++ repeat 0 k)), (repeat 0 k, repeat 0 k), Valid. cbn in Hp. unfold auto_of, attr_i64s_or. rewrite (H2 eq_refl). rewrite Hp.
      rewrite <- repeat_app, <- repeat_map. split; [do 2 f_equal; lia|]. split; [|reflexivity]. rewrite repeat_map, repeat_app. apply padding_read; try apply repeat_length; apply Forall_forall; intros v Hv; apply repeat_spec in Hv; subst v; reflexivity.
  Qed.
  Lemma resolve_accept k n w X nb c ds auto pb pe : input_is e n X -> tshape X = nb :: c :: ds -> length ds = k ->
    length (w_kernel w) = k -> length (w_stride w) = k -> length (w_dilation w) = k -> all_positive (w_kernel w) -> all_positive (w_stride w) ->
    (forall b e, w_pad w = Pads b e -> length b = k /\ length e = k) ->
    auto_is auto (w_pad w) pb pe -> padding_static k n w (tshape X) ->
    exists sp p pad, input_spatial n = IOk sp /\ resolve_auto_pad auto pb pe sp (w_kernel w) (w_stride w) (w_dilation w) = IOk p /\ padding_tokens k p = IOk pad.
  Proof.
    intros (x & ins & Hn & _ & _ & Fx) SX Lds Lk Ls Ll Pk Ps Lp Ha (H1 & _ & H3). rewrite SX in H1, H3, Fx. cbn [skipn] in H1, H3.
    assert (Esp : exists sp, input_spatial n = IOk sp /\ (w_pad w = SameUp \/ w_pad w = SameLow -> sp = Some ds /\ all_positive ds)).
    { unfold input_spatial. rewrite Hn. destruct (static_shape_known (aty x)) as [l|] eqn:El.
      - pose proof (fits_static _ _ _ Fx El) as ->. exists (Some ds). split; [reflexivity|]. intros Hs. destruct (H1 Hs) as (_ & x' & ins' & Hn' & _ & Hp). split; [reflexivity|exact Hp].
      - exists None. split; [reflexivity|]. intros Hs. destruct (H1 Hs) as (_ & x' & ins' & Hn' & Hk & _). rewrite Hn in Hn'. injection Hn' as <- <-. rewrite (known_static _ _ Hk) in El. discriminate. }
    destruct Esp as (sp & Hsp & Hsame). exists sp.
    assert (Hr : exists p, resolve_auto_pad auto pb pe sp (w_kernel w) (w_stride w) (w_dilation w) = IOk p /\ (p = None \/ p = Some (pads_of w ds))).
    { destruct auto; cbn [auto_is] in Ha; unfold resolve_auto_pad.
      - eexists. split; [reflexivity|]. unfold pads_of. rewrite Ha. destruct (forallb (N.eqb 0) (pb ++ pe)); auto.
      - destruct (Hsame (or_introl Ha)) as [-> Pd]. destruct (auto_pads_accept SameUpper (or_introl eq_refl) (w_kernel w) (w_stride w) (w_dilation w) ds ltac:(lia) Pk Ps Pd) as [q Hq]. rewrite Hq. cbn [ibind].
        pose proof (auto_pads_ok SameUpper (or_introl eq_refl) (w_kernel w) (w_stride w) (w_dilation w) ds q ltac:(lia) ltac:(lia) ltac:(lia) Hq) as ->. rewrite <- Ha. destruct w. eexists. split; [reflexivity|right; reflexivity].
      - destruct (Hsame (or_intror Ha)) as [-> Pd]. destruct (auto_pads_accept SameLower (or_intror eq_refl) (w_kernel w) (w_stride w) (w_dilation w) ds ltac:(lia) Pk Ps Pd) as [q Hq]. rewrite Hq. cbn [ibind].
        pose proof (auto_pads_ok SameLower (or_intror eq_refl) (w_kernel w) (w_stride w) (w_dilation w) ds q ltac:(lia) ltac:(lia) ltac:(lia) Hq) as ->. rewrite <- Ha. destruct w. eexists. split; [reflexivity|right; reflexivity].
      - eexists. split; [reflexivity|left; reflexivity]. }
    destruct Hr as (p & Hp & Hpp). exists p. destruct Hpp as [-> | ->].
    - exists None. auto.
    - destruct (pads_of w ds) as [b e']. unfold padding_tokens in *. destruct (Nat.eqb k 3) eqn:K3.
      + apply Nat.eqb_eq in K3. specialize (H3 K3). cbn [fst snd] in H3. subst e'. rewrite eqs_refl. eexists. auto.
      + eexists. auto.
  Qed.
  Lemma attrs_all n l : attrs_in n l -> forallb (fun kv => mem_str (fst kv) l) (nattrs n) = true.
  Proof.
    intros H. apply forallb_forall. intros [key v] Hkv. cbn. specialize (H _ _ Hkv). unfold mem_str. apply existsb_exists. exists key. split; [exact H|apply String.eqb_refl].
  Qed.
  Lemma kernel_accept k n ks : kernel_attr k n ks -> exists l, attr_i64s_or n "kernel_shape" [] = IOk l /\ (l = [] \/ (l = map Z.of_N ks)).
  Proof. intros (L & P & I & [A|A]); unfold attr_i64s_or; rewrite A; eexists; split; try reflexivity; auto. Qed.

  Lemma conv_accept k n X W B w group : (1 <= k)%nat -> input_is e n X -> weights_are value n W B -> window_attrs k n w -> int_attr n "group" 1 group ->
    conv_shapes k group (w_kernel w) X W B -> attrs_in n conv_attrs -> padding_static k n w (tshape X) ->
    (forall x wa bs, ninputs n = x :: wa :: bs -> shape_known wa (tshape W)) -> exists m, conv_module value k n = IOk m.
  Proof.
    intros K HX HW Ha Hg (nb & cg & mo & ds & SX & Lds & SW & Gg & Gm & HB) Hat Hps Hks.
    pose proof HW as (x & wa & bs & Hn & (Hv & WW & ty & Hty) & Hbs). specialize (Hks _ _ _ Hn).
    pose proof Ha as (Hk & Hs & Hp).
    destruct (padding_accept _ _ _ _ Ha Hps) as (pads & pad & auto & P1 & P2 & P3). destruct (strides_read _ _ _ _ Hs) as (S1 & S2 & S3 & S4). destruct (kernel_accept _ _ _ Hk) as (kl & Kl1 & Kl2).
    assert (Ec : exists c, conv_config (shapes value) k n = IOk c).
    { unfold conv_config. rewrite Hn. cbn [nth_error]. unfold shapes at 1. rewrite Hv. cbn [option_map]. rewrite attrs_all by exact Hat. rewrite andb_false_r. rewrite Kl1. cbn [ibind]. rewrite S1. cbn [ibind]. rewrite P1. cbn [ibind]. rewrite S2. cbn [ibind].
      change 1%Z with (Z.of_N 1). rewrite (int_read _ _ _ _ Hg). cbn [ibind]. fold (auto_of n). rewrite P3. cbn [ibind]. rewrite P2. cbn [ibind].
      rewrite (kernel_read k n _ _ _ Hk K Kl1). destruct kl.
      - cbn [cv_shape]. rewrite SW. destruct Hk as (Lk & _). cbn [length]. replace (S (S (length (w_kernel w)))) with (k + 2)%nat by lia. rewrite Nat.eqb_refl. cbn [ibind]. rewrite S3. cbn [ibind]. rewrite S4. cbn [ibind]. eexists. reflexivity.
      - cbn [ibind]. rewrite S3. cbn [ibind]. rewrite S4. cbn [ibind]. eexists. reflexivity. }
    destruct Ec as (c & Ec). unfold conv_module. rewrite Ec. cbn [ibind iexpect]. rewrite Hn. rewrite (known_static _ _ Hks), SW.
    destruct (conv_config_ok (shapes value) k n w c wa (mkC (tshape W) F32 None) Ha K) as (C1 & C2 & C3 & C4 & C5 & C6); [rewrite Hn; reflexivity|unfold shapes; rewrite Hv; reflexivity|cbn; rewrite SW; reflexivity|exact Ec|].
    destruct Hk as (Lk & Pk & _). destruct Hs as (Ls & _ & Ps & _ & Ll & _).
    destruct (resolve_accept k n w X nb (cg * group) ds (cc_auto c) (cc_begin c) (cc_end c)) as (sp & p & pd & R1 & R2 & R3); try assumption.
    rewrite R1. cbn [ibind]. rewrite C1, C2, C3, R2. cbn [ibind]. rewrite R3. cbn [ibind]. cbv zeta. rewrite (C5 _ Hg (proj2 Gg)). rewrite N.mod_mul by lia. rewrite Gm. replace (group =? 0) with false by lia. cbn [N.eqb negb orb].
    rewrite (snapshot_of wa W) by (split; [exact Hv|split; [exact WW|exists ty; exact Hty]]). rewrite N.div_mul by lia. rewrite SW, eqs_refl.
    assert (Eb : exists B', load_bias value n mo = IOk B').
    { unfold load_bias. rewrite Hn. destruct bs as [|b [|]]; [eexists; reflexivity| |contradiction]. destruct Hbs as (t & -> & Hc). rewrite (snapshot_of _ _ Hc). destruct (HB t eq_refl) as [_ ->]. rewrite eqs_refl. eexists. reflexivity. }
    destruct Eb as (B' & ->). cbn [ibind]. eexists. reflexivity.
  Qed.
End Final.
