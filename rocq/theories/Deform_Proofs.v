(** Lemmas about DeformConv. *)
From Verif Require Export Deform_Model.
From Verif Require Import Conv_Proofs Conv_Nodes Conv_Run Conv_Final Tensor_Proofs Linear_Model Linear_Proofs.
From Coq Require Import Lia ZifyBool ZifyNat ZifyN.
Import Conv_Spec Tensor_Spec.
Local Open Scope N_scope.

Section D.
  Context {T : Type} (add mul : T -> T -> T) (zero : T) (of_int : Z -> T) (interp : (Z -> Z -> T) -> T -> T -> T).
  Hypothesis interp_ext : forall f g y x, (forall a b, f a b = g a b) -> interp f y x = interp g y x.

  Lemma pixel_same X n c h w i ch : tshape X = [n; c; h; w] -> i < n -> ch < c -> forall a b, burn_pixel zero X i ch a b = picture zero X h w i ch a b.
  Proof.
    intros SX Hi Hc a b. unfold burn_pixel, picture, inside. destruct ((a <? 0)%Z || (b <? 0)%Z) eqn:E.
    - replace ((0 <=? a)%Z && (a <? Z.of_N h)%Z && ((0 <=? b)%Z && (b <? Z.of_N w)%Z && true)) with false by lia. reflexivity.
    - unfold peek, elem. rewrite SX. cbn [within].
      replace ((i <? n) && ((ch <? c) && ((Z.to_N a <? h) && ((Z.to_N b <? w) && true)))) with ((0 <=? a)%Z && (a <? Z.of_N h)%Z && ((0 <=? b)%Z && (b <? Z.of_N w)%Z && true)) by lia. reflexivity.
  Qed.

  Lemma forward_ok X W F B M w group ogroup n cg m ih iw kh kw sh sw lh lw pt pl pad : twf X -> tshape X = [n; cg * group; ih; iw] -> tshape W = [m; cg; kh; kw] ->
    w = mkWin [kh; kw] [sh; sw] [lh; lw] (Pads [pt; pl] [pt; pl]) ->
    0 < group -> m mod group = 0 -> 0 < ogroup -> (cg * group) mod ogroup = 0 -> bias_ok B m ->
    (forall os, counts (fun _ _ _ _ _ _ => 0) false [kh; kw] [sh; sw] [lh; lw] [pt; pl] [pt; pl] [ih; iw] = Some os ->
        tshape F = n :: 2 * (ogroup * kh * kw) :: os /\ forall t, M = Some t -> twf t /\ tshape t = n :: ogroup * kh * kw :: os) ->
    burn_padding 2 pad = ([pt; pl], [pt; pl]) ->
    deform_forward add mul zero of_int interp (mkDeformM (cg * group) m [kh; kw] [sh; sw] [lh; lw] pad group ogroup W B) X F M =
    onnx_deform_conv add mul zero of_int interp w group ogroup X W F B M.
  Proof.
    intros HX SX SW -> Hg Hm Ho Hc HB HF Hpad. unfold deform_forward, onnx_deform_conv.
    cbn [dm_in dm_out dm_kernel dm_stride dm_dilation dm_pad dm_groups dm_ogroups dm_weight dm_bias w_stride w_dilation w_kernel w_pad pads_of]. rewrite SX, SW, Hpad, !N.eqb_refl. cbn [andb].
    rewrite out_sizes_counts.
    destruct (counts (fun _ _ _ _ _ _ => 0) false [kh; kw] [sh; sw] [lh; lw] [pt; pl] [pt; pl] [ih; iw]) as [os|] eqn:EC; [|reflexivity].
    destruct (HF os eq_refl) as [SF SM]. clear HF. destruct (counts_length _ _ _ _ _ _ _ _ _ EC) as (Lo & _).
    apply tab_ext. intros idx Hi. inversion Hi as [|i ? idx1 ? Hin Hi1]; subst. inversion Hi1 as [|j ? o ? Hj Hos]; subst.
    destruct os as [|oh [|ow [|]]]; cbn [length] in Lo; try lia. inversion Hos as [|oy ? r1 ? Hoy Hr1]; subst. inversion Hr1 as [|ox ? r2 ? Hox Hr2]; subst. inversion Hr2; subst. clear Hi Hi1 Hos Hr1 Hr2.
    f_equal. rewrite (bias_same add zero B m) by assumption. f_equal. rewrite N.div_mul by lia.
    destruct (group_index j m group Hg Hm Hj) as (G1 & G2 & G3).
    apply sum_ext. intros ch Hch. apply upto_In in Hch. apply sum_ext. intros q Hq. apply indices_In in Hq.
    inversion Hq as [|ky ? q1 ? Hky Hq1]; subst. inversion Hq1 as [|kx ? q2 ? Hkx Hq2]; subst. inversion Hq2; subst. cbn [positions]. cbv zeta.
    rewrite (N.mul_comm cg (j / (m / group))).
    assert (Hs : j / (m / group) * cg + ch < cg * group) by (pose proof (below_mul group cg (j / (m / group)) ch G1 Hch); lia).
    set (src := j / (m / group) * cg + ch) in *. set (g := src / (cg * group / ogroup)).
    assert (Hgo : g < ogroup).
    { unfold g. apply N.div_lt_upper_bound; [intros Z; pose proof (N.div_exact (cg * group) ogroup ltac:(lia)) as [_ D]; specialize (D Hc); lia|].
      pose proof (N.div_exact (cg * group) ogroup ltac:(lia)) as [_ D]. specialize (D Hc). lia. }
    assert (Hp : (g * kh + ky) * kw + kx < ogroup * kh * kw).
    { assert (g * kh + ky < ogroup * kh) by nia. nia. }
    replace (g * (kh * kw) + ky * kw + kx) with ((g * kh + ky) * kw + kx) by lia.
    replace (g * (2 * (kh * kw)) + 2 * (ky * kw + kx)) with (2 * ((g * kh + ky) * kw + kx)) by lia.
    set (p := (g * kh + ky) * kw + kx) in *.
    rewrite (peek_elem zero F [i; 2 * p; oy; ox]) by (rewrite SF; repeat constructor; lia).
    rewrite (peek_elem zero F [i; 2 * p + 1; oy; ox]) by (rewrite SF; repeat constructor; lia).
    rewrite (peek_elem zero W) by (rewrite SW; repeat constructor; lia).
    rewrite (interp_ext _ (picture zero X ih iw i src)) by (apply (pixel_same X n (cg * group)); assumption).
    f_equal. unfold masked. destruct M as [t|]; [|reflexivity]. destruct (SM t eq_refl) as [_ St]. rewrite (peek_elem zero t) by (rewrite St; repeat constructor; lia). reflexivity.
  Qed.
End D.

Lemma deform_config_ok value n w group ogroup b e s : kernel_attr 2 n (w_kernel w) -> strides_attr 2 n (w_stride w) (w_dilation w) ->
  length b = 2%nat -> length e = 2%nat -> i64_nats b -> i64_nats e -> ints_attr n "pads" (repeat 0 4) (b ++ e) ->
  int_attr n "group" 1 group -> group < 2 ^ 63 -> int_attr n "offset_group" 1 ogroup -> ogroup < 2 ^ 63 ->
  (exists a, nth_error (ninputs n) 1 = Some a /\ (match value a with Some v => Some (cv_shape v) | None => static_shape_known (aty a) end) = Some s) -> length s = 4%nat -> skipn 2 s = w_kernel w ->
  deform_config value n = IOk (mkDeform (w_kernel w) (w_stride w) b e (w_dilation w) group ogroup).
Proof.
  intros Hk Hs Lb Le Ib Ie Hp Hg Gg Hog Gog (a & Ha & Hv) Ls Ss. unfold deform_config.
  destruct (kernel_accept _ _ _ Hk) as (kl & Kl1 & Kl2). destruct (strides_read _ _ _ _ Hs) as (S1 & S2 & S3 & S4).
  rewrite Kl1. cbn [ibind]. rewrite S1. cbn [ibind]. change 0%Z with (Z.of_N 0). rewrite repeat_map, (ints_read _ _ _ _ Hp). cbn [ibind]. rewrite S2. cbn [ibind].
  change 1%Z with (Z.of_N 1). rewrite (int_read _ _ _ _ Hg). cbn [ibind]. rewrite (int_read _ _ _ _ Hog). cbn [ibind]. rewrite padding_read by assumption. cbn [ibind].
  rewrite (kernel_read 2 n _ _ _ Hk ltac:(lia) Kl1).
  match goal with |- ibind ?r _ = _ => replace r with (IOk (w_kernel w) : ires (list N)) end.
  2:{ destruct kl; [|reflexivity]. rewrite Ha, Hv, Ls, Ss. reflexivity. }
  cbn [ibind]. rewrite S3. cbn [ibind]. rewrite S4. cbn [ibind fst snd]. rewrite !to_usize_nat by assumption. reflexivity.
Qed.
