(** Lemmas about attention. *)
From Flocq Require Import Core BinarySingleNaN.
From Verif Require Import IR_Model IR_Spec IR_Proofs Attention_Spec Attention_Model Attention_Cond.
From Verif Require Import Tensor_Spec Tensor_Proofs.
From Coq Require Import Lra Lia ZifyBool ZifyNat ZifyN.
Local Open Scope N_scope.

(** * The bits of a float *)
Lemma bits32_real (x : f32) : is_finite x = true -> f32_real (bits32 x) = B2R x.
Proof.
  assert (P : forall z, powerRZ 2 z = bpow radix2 z) by (intros z; rewrite bpow_powerRZ; reflexivity).
  destruct x as [s|s| |s m e H]; try discriminate; intros _.
  - destruct s; unfold f32_real; cbn; rewrite Rmult_0_l; lra.
  - pose proof H as H0. unfold SpecFloat.bounded in H0. apply andb_prop in H0. destruct H0 as [Hc He].
    unfold SpecFloat.canonical_mantissa, SpecFloat.fexp, SpecFloat.emin in Hc. apply Zeq_bool_eq in Hc. apply Zle_bool_imp_le in He.
    pose proof (Pos.size_gt m) as Hsz. pose proof (Pos.size_le m) as Hsl.
    assert (Hd : Z.pos (SpecFloat.digits2_pos m) = Z.pos (Pos.size m)).
    { reflexivity. }
    assert (Hm1 : (Z.pos m < 2 ^ Z.pos (Pos.size m))%Z) by (rewrite <- Pos2Z.inj_pow; lia).
    assert (Hm2 : (2 ^ Z.pos (Pos.size m) <= 2 * Z.pos m)%Z) by (rewrite <- Pos2Z.inj_pow; change 2%Z with (Z.pos 2); lia).
    rewrite Hd in Hc. clear Hsz Hsl Hd.
    assert (Hsz : (Z.pos (Pos.size m) <= 24)%Z) by lia.
    assert (Hlt : (Z.pos m < 16777216)%Z).
    { eapply Z.lt_le_trans; [exact Hm1|]. change 16777216%Z with (2 ^ 24)%Z. apply Z.pow_le_mono_r; lia. }
    assert (Hbig : (8388608 <= Z.pos m)%Z -> (Z.pos (Pos.size m) = 24)%Z).
    { intros Hb. destruct (Z.eq_dec (Z.pos (Pos.size m)) 24) as [E|E]; [exact E|exfalso].
      assert ((2 ^ Z.pos (Pos.size m) <= 2 ^ 23)%Z) by (apply Z.pow_le_mono_r; lia). change (2 ^ 23)%Z with 8388608%Z in *. lia. }
    assert (Hsmall : (Z.pos m < 8388608)%Z -> (e = -149)%Z).
    { intros Hb. destruct (Z.eq_dec e (-149)) as [E|E]; [exact E|exfalso].
      assert (Es : (Z.pos (Pos.size m) = 24)%Z) by lia. rewrite Es in Hm2. change (2 ^ 24)%Z with 16777216%Z in Hm2. lia. }
    cbn [bits32]. set (mm := if (m <? 8388608)%positive then N.pos m else (Z.to_N (e + 150) * 8388608 + (N.pos m - 8388608))).
    set (ex := if (m <? 8388608)%positive then 0 else Z.to_N (e + 150)).
    set (fr := if (m <? 8388608)%positive then N.pos m else N.pos m - 8388608).
    assert (Hmm : mm = ex * 8388608 + fr) by (unfold mm, ex, fr; destruct (m <? 8388608)%positive; lia).
    assert (Hfr : fr < 8388608) by (unfold fr; destruct (Pos.ltb_spec m 8388608); lia).
    assert (Hex : ex < 256) by (unfold ex; destruct (Pos.ltb_spec m 8388608); lia).
    set (sg := if s then 1 else 0).
    assert (Hb : (if s then 2147483648 else 0) + mm = (sg * 256 + ex) * 8388608 + fr).
    { rewrite Hmm. unfold sg. destruct s; lia. }
    rewrite Hb. unfold f32_real.
    assert (D : ((sg * 256 + ex) * 8388608 + fr) / 8388608 = sg * 256 + ex).
    { symmetry. apply (N.div_unique _ _ _ fr); lia. }
    assert (M : ((sg * 256 + ex) * 8388608 + fr) mod 8388608 = fr).
    { symmetry. apply (N.mod_unique _ _ (sg * 256 + ex)); lia. }
    rewrite D, M.
    assert (M2 : (sg * 256 + ex) mod 256 = ex) by (symmetry; apply (N.mod_unique _ _ sg); lia).
    rewrite M2.
    assert (T : N.testbit ((sg * 256 + ex) * 8388608 + fr) 31 = s).
    { rewrite N.testbit_eqb. replace (((sg * 256 + ex) * 8388608 + fr) / 2 ^ 31) with sg.
      - unfold sg. destruct s; reflexivity.
      - change (2 ^ 31) with 2147483648. apply (N.div_unique _ _ _ (ex * 8388608 + fr)); lia. }
    rewrite T.
    assert (A : (if ex =? 0 then IZR (Z.of_N fr) * powerRZ 2 (-149) else IZR (Z.of_N (8388608 + fr)) * powerRZ 2 (Z.of_N ex - 150))%R
                = (IZR (Z.pos m) * bpow radix2 e)%R).
    { rewrite !P. unfold ex, fr. destruct (Pos.ltb_spec m 8388608) as [Hl|Hl].
      - cbn [N.eqb]. rewrite Hsmall by lia. f_equal.
      - destruct (N.eqb_spec (Z.to_N (e + 150)) 0) as [E|E]; [lia|].
        f_equal; [f_equal; lia|f_equal; lia]. }
    rewrite A. unfold B2R, F2R. cbn [Fnum Fexp]. destruct s; cbn [cond_Zopp]; [|reflexivity].
    rewrite opp_IZR. lra.
Qed.

(** * Sums *)
Lemma total_ext n f g : (forall i, i < n -> f i = g i) -> total n f = total n g.
Proof.
  intros H. unfold total. assert (H' : forall i, In i (upto n) -> f i = g i) by (intros i Hi; apply H, upto_In, Hi).
  clear H. induction (upto n) as [|a l IH]; cbn; [reflexivity|].
  rewrite H' by (left; reflexivity). rewrite IH; [reflexivity|]. intros; apply H'; right; assumption.
Qed.
Lemma total_scale n f c : total n (fun i => f i * c)%R = (total n f * c)%R.
Proof. unfold total. induction (upto n) as [|a l IH]; cbn; [ring|]. rewrite IH. ring. Qed.

Lemma soft_ext n f g c : (forall i, i < n -> f i = g i) -> c < n -> soft n f c = soft n g c.
Proof.
  intros H Hc. unfold soft. rewrite (H c Hc). f_equal. rewrite (total_ext n (fun k => exp (f k)) (fun k => exp (g k))); [reflexivity|]. intros i Hi. rewrite H; auto.
Qed.

(** * Tensors given by their elements *)
Lemma valid4 b h m n idx : valid_idx [b; h; m; n] idx ->
  exists i j r c, idx = [i; j; r; c] /\ i < b /\ j < h /\ r < m /\ c < n.
Proof.
  intros H. unfold valid_idx in H. inversion H as [|i ? l1 ? H1 H2]; subst. inversion H2 as [|j ? l2 ? H3 H4]; subst.
  inversion H4 as [|r ? l3 ? H5 H6]; subst. inversion H6 as [|c ? l4 ? H7 H8]; subst. inversion H8; subst.
  exists i, j, r, c. auto.
Qed.
Lemma valid4_intro b h m n i j r c : i < b -> j < h -> r < m -> c < n -> valid_idx [b; h; m; n] [i; j; r; c].
Proof. intros; repeat (constructor; [assumption|]). constructor. Qed.

Lemma mk4_shape b h m n f : tshape (mk4 b h m n f) = [b; h; m; n].
Proof. reflexivity. Qed.
Lemma mk4_rd b h m n f i j r c : i < b -> j < h -> r < m -> c < n -> rd (mk4 b h m n f) [i; j; r; c] = f i j r c.
Proof.
  intros H1 H2 H3 H4. unfold rd, get, mk4, mk. cbn [tshape tdata]. rewrite nth_error_map.
  rewrite (indices_offset [b; h; m; n] [i; j; r; c]) by (apply valid4_intro; assumption). reflexivity.
Qed.
Lemma mk4_ext b h m n f g : (forall i j r c, i < b -> j < h -> r < m -> c < n -> f i j r c = g i j r c) ->
  mk4 b h m n f = mk4 b h m n g.
Proof.
  intros H. unfold mk4, mk. f_equal. apply map_ext_in. intros idx Hi. apply indices_In, valid4 in Hi.
  destruct Hi as (i & j & r & c & -> & H1 & H2 & H3 & H4). auto.
Qed.

(** * Broadcasting *)
Lemma elementwise_rd op (x y r : rt) idx : elementwise op x y = Some r -> valid_idx (tshape r) idx ->
  rd r idx = op (rd x (bproj (tshape x) idx)) (rd y (bproj (tshape y) idx)).
Proof.
  intros H Hv. unfold elementwise in H. destruct (bshape (tshape x) (tshape y)) as [s|] eqn:E; [|discriminate].
  destruct (tab_wf _ _ _ H) as [Hw Hs]. rewrite Hs in Hv. pose proof (get_tab _ _ _ _ H Hv) as G.
  destruct (get_valid r idx Hw) as [a [Ha _]]; [rewrite Hs; exact Hv|].
  unfold rd. rewrite G. rewrite Ha in G.
  destruct (get x (bproj (tshape x) idx)); cbn in *; [|discriminate].
  destruct (get y (bproj (tshape y) idx)); cbn in *; [|discriminate]. reflexivity.
Qed.
Lemma elementwise_shape op (x y r : rt) : elementwise op x y = Some r -> bshape (tshape x) (tshape y) = Some (tshape r).
Proof. intros H. exact (proj2 (elementwise_wf _ _ _ _ H)). Qed.

Lemma bdim_1r d : bdim d 1 = Some d.
Proof. unfold bdim. destruct (N.eqb_spec d 1); [subst; reflexivity|]. destruct (N.eqb_spec d 1); [contradiction|reflexivity]. Qed.
Lemma bdim_1l d : bdim 1 d = Some d.
Proof. unfold bdim. destruct (N.eqb_spec 1 d); [subst; reflexivity|reflexivity]. Qed.

Lemma ones_repeat s : Forall (eq 1) s -> s = repeat 1 (length s).
Proof. induction 1 as [|x l Hx Hl IH]; cbn; [reflexivity|]. congruence. Qed.

Lemma ones_shape s b h m n : Forall (eq 1) s -> (length s <= 4)%nat ->
  bshape [b; h; m; n] s = Some [b; h; m; n] /\ bshape s [b; h; m; n] = Some [b; h; m; n].
Proof.
  intros Hs Hl. rewrite (ones_repeat s Hs). destruct (length s) as [|[|[|[|[|k]]]]]; [| | | | |lia];
    unfold bshape; cbn [repeat rev app brev option_map]; rewrite ?bdim_1r, ?bdim_1l; cbn; split; reflexivity.
Qed.
Lemma ones_rd s c idx : Forall (eq 1) s -> (length s <= 4)%nat -> rd (mkT s [c]) (bproj s idx) = c.
Proof.
  intros Hs Hl. assert (H : forall s idx, Forall (eq 1) s -> offset s (bproj s idx) = 0).
  { clear. intros s idx Hs. unfold bproj. generalize (skipn (length idx - length s) idx). induction Hs as [|x s Hx Hs IH]; intros l; [reflexivity|].
    destruct l as [|y l]; [reflexivity|]. cbn [combine map fst snd offset]. subst x. cbn [N.eqb Pos.eqb]. rewrite IH. lia. }
  unfold rd, get. cbn [tshape tdata]. rewrite H by exact Hs. reflexivity.
Qed.

Lemma scaled_r op (x r : rt) s c b h m n : elementwise op x (mkT s [c]) = Some r -> Forall (eq 1) s -> (length s <= 4)%nat ->
  tshape x = [b; h; m; n] ->
  tshape r = [b; h; m; n] /\ forall i j k l, i < b -> j < h -> k < m -> l < n -> rd r [i; j; k; l] = op (rd x [i; j; k; l]) c.
Proof.
  intros H Hs Hl Hx. pose proof (elementwise_shape _ _ _ _ H) as Hb. cbn [tshape] in Hb. rewrite Hx in Hb.
  rewrite (proj1 (ones_shape s b h m n Hs Hl)) in Hb. assert (Hr : tshape r = [b; h; m; n]) by congruence.
  split; [exact Hr|]. intros i j k l H1 H2 H3 H4. pose proof (valid4_intro _ _ _ _ _ _ _ _ H1 H2 H3 H4) as Hv.
  rewrite (elementwise_rd _ _ _ _ _ H) by (rewrite Hr; exact Hv).
  rewrite Hx, (bproj_self [b; h; m; n]) by exact Hv. cbn [tshape]. rewrite ones_rd by assumption. reflexivity.
Qed.
Lemma scaled_l op (x r : rt) s c b h m n : elementwise op (mkT s [c]) x = Some r -> Forall (eq 1) s -> (length s <= 4)%nat ->
  tshape x = [b; h; m; n] ->
  tshape r = [b; h; m; n] /\ forall i j k l, i < b -> j < h -> k < m -> l < n -> rd r [i; j; k; l] = op c (rd x [i; j; k; l]).
Proof.
  intros H Hs Hl Hx. pose proof (elementwise_shape _ _ _ _ H) as Hb. cbn [tshape] in Hb. rewrite Hx in Hb.
  rewrite (proj2 (ones_shape s b h m n Hs Hl)) in Hb. assert (Hr : tshape r = [b; h; m; n]) by congruence.
  split; [exact Hr|]. intros i j k l H1 H2 H3 H4. pose proof (valid4_intro _ _ _ _ _ _ _ _ H1 H2 H3 H4) as Hv.
  rewrite (elementwise_rd _ _ _ _ _ H) by (rewrite Hr; exact Hv).
  rewrite Hx, (bproj_self [b; h; m; n]) by exact Hv. cbn [tshape]. rewrite ones_rd by assumption. reflexivity.
Qed.

(** A mask that fits keeps its meaning when it gets rank 4. *)
Lemma bdim_comm a b : bdim a b = bdim b a.
Proof.
  unfold bdim. destruct (N.eqb_spec a b) as [->|Hab]; [rewrite N.eqb_refl; reflexivity|].
  destruct (N.eqb_spec b a) as [->|_]; [contradiction|].
  destruct (N.eqb_spec a 1), (N.eqb_spec b 1); congruence.
Qed.
Lemma brev_comm a : forall b, brev a b = brev b a.
Proof.
  induction a as [|x a IH]; intros [|y b]; try reflexivity. cbn. rewrite bdim_comm, IH. reflexivity.
Qed.
Lemma bshape_comm a b : bshape a b = bshape b a.
Proof. unfold bshape. rewrite brev_comm. reflexivity. Qed.

Lemma mask_ok b h m n (v : rt) : mask_fits [b; h; m; n] (tshape v) ->
  exists s4, mask4 (tshape v) = Some s4 /\ bshape [b; h; m; n] s4 = Some [b; h; m; n] /\
    forall i j r c, bias_of v s4 [i; j; r; c] = rd v (bproj (tshape v) [i; j; r; c]).
Proof.
  destruct v as [t d]. intros [Hb Hr]. cbn [tshape] in *.
  assert (Hz : forall s l, offset (1 :: s) (0 :: l) = offset s l) by (intros; cbn; lia).
  destruct Hr as [Hr|[Hr|(m' & n' & ->)]].
  - destruct t as [|m' [|n' [|? ?]]]; try discriminate. exists [1; 1; m'; n']. split; [reflexivity|]. split.
    + unfold bshape in *. cbn in *. destruct (bdim n n') as [x|]; [|discriminate]. destruct (bdim m m') as [y|]; [|discriminate].
      rewrite !bdim_1r. cbn in *. exact Hb.
    + intros. unfold bias_of, rd, get. cbn [tshape tdata length Nat.sub skipn bproj combine map fst snd N.eqb Pos.eqb].
      rewrite !Hz. reflexivity.
  - destruct t as [|b' [|h' [|m' [|n' [|? ?]]]]]; try discriminate. exists [b'; h'; m'; n'].
    split; [reflexivity|]. split; [exact Hb|reflexivity].
  - exists [1; 1; m'; n']. split; [reflexivity|]. split.
    + unfold bshape in *. cbn in *. destruct (bdim n n') as [x|]; [|discriminate]. destruct (bdim m m') as [y|]; [|discriminate].
      rewrite !bdim_1r in *. cbn in *. exact Hb.
    + intros. unfold bias_of, rd, get. cbn [tshape tdata length Nat.sub skipn bproj combine map fst snd N.eqb Pos.eqb].
      rewrite !Hz. reflexivity.
Qed.
Lemma masked op (x v r : rt) b h m n : elementwise op x v = Some r -> tshape x = [b; h; m; n] ->
  mask_fits [b; h; m; n] (tshape v) ->
  tshape r = [b; h; m; n] /\ forall i j k l, i < b -> j < h -> k < m -> l < n ->
    rd r [i; j; k; l] = op (rd x [i; j; k; l]) (rd v (bproj (tshape v) [i; j; k; l])).
Proof.
  intros H Hx [Hb _]. pose proof (elementwise_shape _ _ _ _ H) as Hs. rewrite Hx, Hb in Hs.
  assert (Hr : tshape r = [b; h; m; n]) by congruence. split; [exact Hr|].
  intros i j k l H1 H2 H3 H4. pose proof (valid4_intro _ _ _ _ _ _ _ _ H1 H2 H3 H4) as Hv.
  rewrite (elementwise_rd _ _ _ _ _ H) by (rewrite Hr; exact Hv). rewrite Hx, (bproj_self [b; h; m; n]) by exact Hv. reflexivity.
Qed.
Lemma masked_l op (x v r : rt) b h m n : elementwise op v x = Some r -> tshape x = [b; h; m; n] ->
  mask_fits [b; h; m; n] (tshape v) ->
  tshape r = [b; h; m; n] /\ forall i j k l, i < b -> j < h -> k < m -> l < n ->
    rd r [i; j; k; l] = op (rd v (bproj (tshape v) [i; j; k; l])) (rd x [i; j; k; l]).
Proof.
  intros H Hx [Hb _]. pose proof (elementwise_shape _ _ _ _ H) as Hs. rewrite bshape_comm in Hb. rewrite Hx, Hb in Hs.
  assert (Hr : tshape r = [b; h; m; n]) by congruence. split; [exact Hr|].
  intros i j k l H1 H2 H3 H4. pose proof (valid4_intro _ _ _ _ _ _ _ _ H1 H2 H3 H4) as Hv.
  rewrite (elementwise_rd _ _ _ _ _ H) by (rewrite Hr; exact Hv). rewrite Hx, (bproj_self [b; h; m; n]) by exact Hv. reflexivity.
Qed.
