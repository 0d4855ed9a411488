(** Nodes for pooling and transposed convolutions. *)
From Verif Require Export Conv_Final.
From Verif Require Import Tensor_Proofs Import_Model Linear_Model Linear_Proofs.
From Coq Require Import Lia ZifyBool ZifyNat ZifyN.
Import Conv_Spec Tensor_Spec.
Local Open Scope N_scope.

Section More.
  Context {T : Type} (add mul : T -> T -> T) (zero : T) (ceil_count : N -> N -> N -> N -> N -> N -> N) (value : arg -> option (tensor T)) (e : string -> option (tensor T)).

  Lemma pool_module_parts k (avg : bool) n X w c nb ch ds sp p pad : input_is e n X -> tshape X = nb :: ch :: ds -> length ds = k -> window_attrs k n w -> (1 <= k)%nat ->
    get_attr n "kernel_shape" = Some (AInts (map Z.of_N (w_kernel w))) -> pool_config k avg n = IOk c ->
    input_spatial n = IOk sp -> resolve_auto_pad (pc_auto c) (pc_begin c) (pc_end c) sp (pc_kernel c) (pc_stride c) (pc_dilation c) = IOk p -> padding_tokens k p = IOk pad ->
    burn_padding k pad = pads_of w ds /\ pc_kernel c = w_kernel w /\ pc_stride c = w_stride w /\ pc_dilation c = w_dilation w /\
    (forall b, flag n "ceil_mode" b -> pc_ceil c = b) /\ (avg = true -> forall b, flag n "count_include_pad" b -> pc_include_pad c = b) /\
    (forall b e, w_pad w = Pads b e -> length b = k /\ length e = k).
  Proof.
    intros (x & ins & Hn & He & WX & Fx) SX Lds Ha K Hk Ec Esp Er Et. destruct (pool_config_ok k avg n w c Ha K Hk Ec) as (C1 & C2 & C3 & C4 & C5 & C6 & C7). rewrite C1, C2, C3 in Er.
    destruct Ha as ((Lk & _) & (Ls & _ & _ & _ & Ll & _) & _).
    split; [|split; [exact C1|split; [exact C2|split; [exact C3|split; [|split; [|exact C7]]]]]].
    - eapply resolve_ok; try eassumption. apply (input_spatial_ok n x _ (tshape X) ds sp Hn); [intros l Hl; exact (fits_static _ _ _ Fx Hl)|exists nb, ch; exact SX|exact Esp].
    - intros b (v & Hv & ->). apply C5. exact Hv.
    - intros Hav b (v & Hv & ->). apply C6; assumption.
  Qed.
  Lemma max_module_ok (larger : T -> T -> T) (lowest : T) k n X w ceil m : (forall v, larger lowest v = v) -> (1 <= k)%nat -> input_is e n X -> pool_shape k X -> window_attrs k n w ->
    get_attr n "kernel_shape" = Some (AInts (map Z.of_N (w_kernel w))) -> flag n "ceil_mode" ceil -> max_pool_module k n = IOk m ->
    max_forward ceil_count larger lowest k m X = onnx_max_pool zero larger lowest ceil_count ceil w X.
  Proof.
    intros Hz K HX (nb & ch & ds & SX & Lds) Ha Hk Hc H. unfold max_pool_module in H.
    destruct (pool_config k false n) as [c| |] eqn:Ec; cbn [ibind iexpect] in H; try discriminate. destruct (input_spatial n) as [sp| |] eqn:Esp; cbn [ibind] in H; try discriminate.
    destruct (resolve_auto_pad (pc_auto c) (pc_begin c) (pc_end c) sp (pc_kernel c) (pc_stride c) (pc_dilation c)) as [p| |] eqn:Er; cbn [ibind] in H; try discriminate.
    destruct (padding_tokens k p) as [pad| |] eqn:Et; cbn [ibind] in H; try discriminate. injection H as <-.
    destruct (pool_module_parts k false n X w c nb ch ds sp p pad HX SX Lds Ha K Hk Ec Esp Er Et) as (P & C1 & C2 & C3 & C4 & _ & C6).
    destruct HX as (_ & _ & _ & _ & WX & _). destruct Ha as ((Lk & _) & (Ls & _ & _ & _ & Ll & _) & _). rewrite C1, C2, C3, (C4 _ Hc).
    exact (max_forward_ok add mul zero ceil_count larger lowest k w ceil false X nb ch ds pad Hz WX SX Lds Lk Ls Ll C6 P).
  Qed.
  Lemma avg_module_ok (over : T -> N -> T) k n X w inc m : (forall v, add zero v = v) -> (1 <= k)%nat -> input_is e n X -> pool_shape k X -> window_attrs k n w -> w_dilation w = repeat 1 k ->
    get_attr n "kernel_shape" = Some (AInts (map Z.of_N (w_kernel w))) -> flag n "ceil_mode" false -> flag n "count_include_pad" inc -> avg_pool_module k n = IOk m ->
    avg_forward add zero ceil_count over k m X = onnx_average_pool add zero over ceil_count false inc w X.
  Proof.
    intros Hz K HX (nb & ch & ds & SX & Lds) Ha Hd Hk Hc Hi H. unfold avg_pool_module in H.
    destruct (pool_config k true n) as [c| |] eqn:Ec; cbn [ibind iexpect] in H; try discriminate. destruct (input_spatial n) as [sp| |] eqn:Esp; cbn [ibind] in H; try discriminate.
    destruct (resolve_auto_pad (pc_auto c) (pc_begin c) (pc_end c) sp (pc_kernel c) (pc_stride c) (pc_dilation c)) as [p| |] eqn:Er; cbn [ibind] in H; try discriminate.
    destruct (padding_tokens k p) as [pad| |] eqn:Et; cbn [ibind] in H; try discriminate. injection H as <-.
    destruct (pool_module_parts k true n X w c nb ch ds sp p pad HX SX Lds Ha K Hk Ec Esp Er Et) as (P & C1 & C2 & C3 & C4 & C5 & C6).
    destruct HX as (_ & _ & _ & _ & WX & _). destruct Ha as ((Lk & Pk & _) & (Ls & _ & Ps & _ & Ll & _) & _). rewrite C1, C2, (C4 _ Hc), (C5 eq_refl _ Hi).
    exact (avg_forward_ok add mul zero ceil_count over k w inc X nb ch ds pad [] Hz WX SX Lds Pk Ps Lk Ls Hd C6 P).
  Qed.

  Lemma flag_read n key b : flag n key b -> exists z, attr_i64_or n key 0 = IOk z.
  Proof. intros (v & Hv & _). exists (Z.of_N v). change 0%Z with (Z.of_N 0). apply int_read. exact Hv. Qed.
  Lemma pool_config_accept k (avg : bool) n w s c1 c2 : window_attrs k n w -> padding_static k n w s -> get_attr n "kernel_shape" = Some (AInts (map Z.of_N (w_kernel w))) ->
    flag n "ceil_mode" c1 -> flag n "count_include_pad" c2 -> exists c, pool_config k avg n = IOk c.
  Proof.
    intros Ha Hps Hk Hc Hi. pose proof Ha as ((Lk & Pk & Ik & _) & Hs & _).
    destruct (padding_accept add mul zero _ _ _ _ Ha Hps) as (pads & pad & auto & P1 & P2 & P3). destruct (strides_read _ _ _ _ Hs) as (S1 & S2 & S3 & S4).
    destruct (flag_read _ _ _ Hc) as [zc Zc]. destruct (flag_read _ _ _ Hi) as [zi Zi].
    unfold pool_config. unfold attr_i64s_or at 1. rewrite Hk. cbn [attr_i64s ibind]. rewrite S1. cbn [ibind]. rewrite P1. cbn [ibind]. rewrite S2. cbn [ibind]. rewrite Zc. cbn [ibind].
    fold (auto_of n). destruct avg; rewrite ?Zi; cbn [ibind]; rewrite P3; cbn [ibind]; rewrite P2; cbn [ibind]; rewrite first_k_nat by assumption; cbn [ibind]; rewrite S3; cbn [ibind]; rewrite S4; cbn [ibind]; eexists; reflexivity.
  Qed.
  Lemma pool_accept k n X w c1 c2 : (1 <= k)%nat -> input_is e n X -> pool_shape k X -> window_attrs k n w -> padding_static k n w (tshape X) ->
    get_attr n "kernel_shape" = Some (AInts (map Z.of_N (w_kernel w))) -> flag n "ceil_mode" c1 -> flag n "count_include_pad" c2 ->
    (exists m, max_pool_module k n = IOk m) /\ (exists m, avg_pool_module k n = IOk m).
  Proof.
    intros K HX (nb & ch & ds & SX & Lds) Ha Hps Hk Hc Hi. pose proof Ha as ((Lk & Pk & Ik & _) & (Ls & _ & Ps & _ & Ll & _) & _).
    split; [unfold max_pool_module; destruct (pool_config_accept k false n w _ c1 c2 Ha Hps Hk Hc Hi) as [c Ec]; pose proof (pool_config_ok k false n w c Ha K Hk Ec) as (C1 & C2 & C3 & C4 & C5 & C6 & C7)
           |unfold avg_pool_module; destruct (pool_config_accept k true n w _ c1 c2 Ha Hps Hk Hc Hi) as [c Ec]; pose proof (pool_config_ok k true n w c Ha K Hk Ec) as (C1 & C2 & C3 & C4 & C5 & C6 & C7)];
      rewrite Ec; cbn [ibind iexpect];
      destruct (resolve_accept add mul zero ceil_count value e k n w X nb ch ds (pc_auto c) (pc_begin c) (pc_end c) HX SX Lds Lk Ls Ll Pk Ps C7 C4 Hps) as (sp & p & pd & R1 & R2 & R3);
      rewrite R1; cbn [ibind]; rewrite C1, C2, C3, R2; cbn [ibind]; rewrite R3; cbn [ibind]; eexists; reflexivity.
  Qed.

  (** ConvTranspose *)
  Lemma zs_eqb_refl l : zs_eqb l l = true.
  Proof. induction l as [|z l IH]; [reflexivity|]. cbn. rewrite Z.eqb_refl. exact IH. Qed.
  Lemma tconv_config_ok k n ks ss dl ps op group i1 W : (1 <= k)%nat -> tconv_attrs_are k n ks ss dl ps op -> int_attr n "group" 1 group -> group < 2 ^ 63 -> attrs_in n tconv_attrs ->
    nth_error (ninputs n) 1 = Some i1 -> value i1 = Some W -> length (tshape W) = (k + 2)%nat -> skipn 2 (tshape W) = ks ->
    tconv_config (shapes value) k n = IOk (mkTconv ks ss dl ps op group).
  Proof.
    intros K (Hk & Hs & Hauto & Lp & Ip & Ap & Lo & Io & Ao) Hg Gg Hat Hi Hv Lw Sw. unfold tconv_config. rewrite attrs_all by exact Hat. cbn [negb].
    replace (match get_attr n "auto_pad" with Some (AString s) => if String.eqb s "NOTSET" then IOk tt else IErr | Some _ => IPanic | None => IOk tt end) with (IOk tt) by (destruct Hauto as [-> | ->]; reflexivity). cbn [ibind].
    destruct (kernel_accept _ _ _ Hk) as (kl & Kl1 & Kl2). destruct (strides_read _ _ _ _ Hs) as (S1 & S2 & S3 & S4).
    rewrite Kl1. cbn [ibind]. rewrite S1. cbn [ibind]. change 0%Z with (Z.of_N 0). rewrite repeat_map, (ints_read _ _ _ _ Ap). cbn [ibind]. rewrite S2. cbn [ibind].
    change 1%Z with (Z.of_N 1). rewrite (int_read _ _ _ _ Hg). cbn [ibind]. rewrite repeat_map, (ints_read _ _ _ _ Ao). cbn [ibind].
    assert (Lpp : length (map Z.of_N (ps ++ ps)) = (2 * k)%nat) by (rewrite map_length, app_length; lia).
    assert (F : firstn k (map Z.of_N (ps ++ ps)) = map Z.of_N ps /\ skipn k (map Z.of_N (ps ++ ps)) = map Z.of_N ps).
    { rewrite map_app, firstn_app, skipn_app, map_length, firstn_all2, skipn_all2 by (rewrite map_length; lia). replace (k - length ps)%nat with 0%nat by lia. cbn [firstn skipn app]. rewrite app_nil_r. auto. }
    destruct F as [F1 F2].
    match goal with |- ibind ?r _ = _ => replace r with (IOk tt : ires unit) end.
    2:{ destruct (Nat.eqb k 1) eqn:K1.
        - apply Nat.eqb_eq in K1. subst k. rewrite K1 in *. rewrite Lpp, F1, F2, zs_eqb_refl. cbn [Nat.mul Nat.add Nat.eqb negb orb]. rewrite Hi. unfold shapes. rewrite Hv. reflexivity.
        - rewrite Lpp. replace (Nat.ltb (2 * k) (2 * k)) with false by lia. rewrite firstn_all2 by lia. change (Z.of_N 0) with 0%Z. rewrite existsb_nat. rewrite F1, F2. rewrite firstn_all2 by (rewrite map_length; lia). rewrite zs_eqb_refl. reflexivity. }
    cbn [ibind]. rewrite (kernel_read k n _ _ _ Hk K Kl1).
    match goal with |- ibind ?r _ = _ => replace r with (IOk ks : ires (list N)) end.
    2:{ destruct kl; [|reflexivity]. unfold weight_kernel. rewrite Hi. unfold shapes. rewrite Hv. cbn [option_map cv_shape]. rewrite Lw, Nat.eqb_refl, Sw. reflexivity. }
    cbn [ibind]. rewrite S3. cbn [ibind]. rewrite S4. cbn [ibind].
    unfold first_k at 1. rewrite Lpp, F1. replace (Nat.ltb (2 * k) k) with false by lia. rewrite map_to_usize by exact Ip. cbn [ibind]. rewrite first_k_nat by assumption. cbn [ibind]. rewrite to_usize_nat by exact Gg. reflexivity.
  Qed.
  Lemma tconv_module_ok k n X W B ks ss dl ps op group : (1 <= k)%nat -> input_is e n X -> weights_are value n W B -> tconv_attrs_are k n ks ss dl ps op -> int_attr n "group" 1 group ->
    attrs_in n tconv_attrs -> conv_transpose_shapes k group ks X W B -> (forall x wa bs, ninputs n = x :: wa :: bs -> shape_known wa (tshape W)) ->
    exists m, tconv_module value k n = IOk m /\ tconv_forward add mul zero m X = onnx_conv_transpose add mul zero ss dl ps ps op group X W B.
  Proof.
    intros K HX HW Ha Hg Hat (nb & c & mg & ds & SX & Lds & SW & Gg & Gc & HB) Hks.
    pose proof HW as (x & wa & bs & Hn & (Hv & WW & ty & Hty) & Hbs). specialize (Hks _ _ _ Hn).
    destruct Ha as (Hk & Ha'). pose proof Hk as (Lk & _).
    pose proof (tconv_config_ok k n ks ss dl ps op group wa W K (conj Hk Ha') Hg (proj2 Gg) Hat) as Ec.
    rewrite Hn in Ec. specialize (Ec eq_refl Hv). rewrite SW in Ec. specialize (Ec ltac:(cbn; lia) eq_refl).
    unfold tconv_module. rewrite Ec. cbn [ibind iexpect tc_group tc_kernel tc_stride tc_dilation tc_pad tc_out]. rewrite Hn. rewrite (known_static _ _ Hks), SW. cbv zeta.
    rewrite N.mod_mul by lia. rewrite Gc. replace (group =? 0) with false by lia. cbn [N.eqb negb orb].
    rewrite (snapshot_of value wa W) by (split; [exact Hv|split; [exact WW|exists ty; exact Hty]]). rewrite N.div_mul by lia. rewrite SW, eqs_refl.
    assert (Eb : load_bias value n (mg * group) = IOk B).
    { unfold load_bias. rewrite Hn. destruct bs as [|b [|]]; [congruence| |contradiction]. destruct Hbs as (t & -> & Hc). rewrite (snapshot_of _ _ _ Hc). destruct (HB t eq_refl) as [_ ->]. rewrite eqs_refl. reflexivity. }
    rewrite Eb. cbn [ibind]. eexists. split; [reflexivity|]. destruct HX as (_ & _ & _ & _ & WX & _).
    apply (tconv_forward_ok add mul zero ceil_count ks ss dl ps op group X W B nb c ds mg); try assumption; lia.
  Qed.
End More.
