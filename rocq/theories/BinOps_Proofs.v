(** Proofs about the code emitted for two-operand element-wise operators. *)
From Coq Require Import SpecFloat Lia ZifyBool ZifyNat ZifyN.
From Verif Require Import BinOps_Model Tensor_Proofs Linear_Proofs.
Local Open Scope Z_scope.

(** ** Partial maps *)
Lemma mapo_mono {A B} (f g : A -> option B) : forall l r,
  (forall x y, In x l -> f x = Some y -> g x = Some y) -> mapo f l = Some r -> mapo g l = Some r.
Proof.
  induction l as [|a l IH]; intros r H E; cbn in *; [exact E|].
  destruct (f a) as [y|] eqn:Ea; [|discriminate]. destruct (mapo f l) as [ys|] eqn:El; [|discriminate].
  rewrite (H a y (or_introl eq_refl) Ea), (IH ys); auto.
Qed.
Lemma tab_mono {A} s (f g : list N -> option A) t :
  (forall idx y, valid_idx s idx -> f idx = Some y -> g idx = Some y) -> tab s f = Some t -> tab s g = Some t.
Proof.
  intros H. unfold tab. destruct (mapo f (indices s)) as [l|] eqn:E; [|discriminate]. intros Ht.
  rewrite (mapo_mono f g _ l); [exact Ht| |exact E]. intros x y Hx. apply H. apply indices_In. exact Hx.
Qed.
Lemma mapo_bind {A B C} (f : A -> option B) (g : B -> option C) : forall l l',
  mapo f l = Some l' -> mapo (fun x => match f x with Some a => g a | None => None end) l = mapo g l'.
Proof.
  induction l as [|a l IH]; intros l' E; cbn in *; [injection E as <-; reflexivity|].
  destruct (f a) as [y|]; [|discriminate]. destruct (mapo f l) as [ys|]; [|discriminate].
  injection E as <-. cbn. rewrite (IH _ eq_refl). reflexivity.
Qed.
Lemma mapo_Forall {A B} (f : A -> option B) (Q : B -> Prop) : forall l r,
  (forall x y, In x l -> f x = Some y -> Q y) -> mapo f l = Some r -> Forall Q r.
Proof.
  induction l as [|a l IH]; intros r H E; cbn in E; [injection E as <-; constructor|].
  destruct (f a) as [y|] eqn:Ea; [|discriminate]. destruct (mapo f l) as [ys|] eqn:El; [|discriminate].
  injection E as <-. constructor; [eapply H; [left; reflexivity|exact Ea]|]. apply IH; [|reflexivity].
  intros x z Hx. apply H. right. exact Hx.
Qed.

(** ** Broadcasting *)
Lemma broadcast2_mono {A B} (op op' : A -> A -> option B) x y t :
  (forall a b r, In a (tdata x) -> In b (tdata y) -> op a b = Some r -> op' a b = Some r) ->
  broadcast2 op x y = Some t -> broadcast2 op' x y = Some t.
Proof.
  intros H. unfold broadcast2. destruct (bshape (tshape x) (tshape y)) as [s|]; [|discriminate].
  apply tab_mono. intros idx r Hv. unfold get.
  destruct (nth_error (tdata x) _) as [a|] eqn:Ea; [|discriminate].
  destruct (nth_error (tdata y) _) as [b|] eqn:Eb; [|discriminate].
  apply H; eapply nth_error_In; eassumption.
Qed.
Lemma broadcast2_flip {A B} (op : A -> A -> option B) x y :
  broadcast2 op x y = broadcast2 (fun a b => op b a) y x.
Proof.
  unfold broadcast2. rewrite bshape_comm. destruct (bshape _ _) as [s|]; [|reflexivity].
  apply tab_ext. intros idx _. destruct (get x _), (get y _); reflexivity.
Qed.
Lemma broadcast2_facts {A B} (op : A -> A -> option B) x y t (Q : B -> Prop) :
  (forall a b r, In a (tdata x) -> In b (tdata y) -> op a b = Some r -> Q r) ->
  broadcast2 op x y = Some t ->
  twf t /\ Forall Q (tdata t) /\ length (tshape t) = Nat.max (length (tshape x)) (length (tshape y)).
Proof.
  unfold broadcast2. intros H. destruct (bshape (tshape x) (tshape y)) as [s|] eqn:E; [|discriminate].
  intros Ht. destruct (tab_wf _ _ _ Ht) as [W S]. split; [exact W|]. split.
  - unfold tab in Ht. destruct (mapo _ (indices s)) as [l|] eqn:El; [|discriminate]. injection Ht as <-. cbn.
    eapply mapo_Forall; [|exact El]. intros idx r Hi. cbn beta. unfold get.
    destruct (nth_error (tdata x) _) as [a|] eqn:Ea; [|discriminate].
    destruct (nth_error (tdata y) _) as [b|] eqn:Eb; [|discriminate].
    apply H; eapply nth_error_In; eassumption.
  - rewrite S. unfold bshape in E. destruct (brev (rev (tshape x)) (rev (tshape y))) as [r|] eqn:Er; [|discriminate].
    injection E as <-. rewrite rev_length, (brev_length _ _ _ Er), !rev_length. reflexivity.
Qed.

Lemma rev_repeat {A} (a : A) k : rev (repeat a k) = repeat a k.
Proof.
  induction k as [|k IH]; [reflexivity|]. cbn [repeat rev]. rewrite IH. symmetry. apply repeat_cons.
Qed.
Lemma brev_ones k : forall l, (k <= length l)%nat -> brev (repeat 1%N k) l = Some l.
Proof.
  induction k as [|k IH]; intros [|y l] H; cbn in *; try lia; try reflexivity.
  rewrite IH by lia. unfold bdim. destruct (N.eqb_spec 1 y); subst; reflexivity.
Qed.
Lemma brev_app_ones k a : forall l, (length a + k <= length l)%nat -> brev (a ++ repeat 1%N k) l = brev a l.
Proof.
  induction a as [|x a IH]; intros [|y l] H; cbn in *; try lia.
  - destruct k; [reflexivity|]; lia.
  - rewrite brev_ones by (cbn; lia). reflexivity.
  - rewrite IH by lia. reflexivity.
Qed.
Lemma bshape_unsqueeze k a b : (k + length a <= length b)%nat -> bshape (repeat 1%N k ++ a) b = bshape a b.
Proof.
  intros H. unfold bshape. rewrite rev_app_distr, rev_repeat, brev_app_ones; [reflexivity|]. rewrite !rev_length. lia.
Qed.
Lemma combine_app' {A B} (a : list A) (b : list B) a' b' : length a = length b ->
  combine (a ++ a') (b ++ b') = combine a b ++ combine a' b'.
Proof. revert b. induction a as [|x a IH]; intros [|y b] H; cbn in *; try discriminate; [reflexivity|]. rewrite IH by lia. reflexivity. Qed.
Lemma map_combine_ones k : forall l, length l = k ->
  map (fun di : N * N => if N.eqb (fst di) 1 then 0%N else snd di) (combine (repeat 1%N k) l) = repeat 0%N k.
Proof. induction k as [|k IH]; intros [|y l] H; cbn in *; try discriminate; [reflexivity|]. rewrite IH by lia. reflexivity. Qed.
Lemma bproj_unsqueeze k a idx : (k + length a <= length idx)%nat ->
  bproj (repeat 1%N k ++ a) idx = repeat 0%N k ++ bproj a idx.
Proof.
  intros H. unfold bproj. rewrite app_length, repeat_length.
  set (P := skipn (length idx - (k + length a)) idx).
  assert (LP : length P = (k + length a)%nat) by (unfold P; rewrite skipn_length; lia).
  assert (EP : skipn (length idx - length a) idx = skipn k P).
  { unfold P. replace (length idx - length a)%nat with (k + (length idx - (k + length a)))%nat by lia.
    generalize (length idx - (k + length a))%nat as j. clear. intros j. revert idx.
    induction j as [|j IH]; intros idx; [rewrite Nat.add_0_r; reflexivity|].
    replace (k + S j)%nat with (S (k + j)) by lia. destruct idx; cbn [skipn]; [rewrite skipn_nil; reflexivity|]. apply IH. }
  rewrite EP. rewrite <- (firstn_skipn k P) at 1.
  rewrite combine_app' by (rewrite repeat_length, firstn_length; lia).
  rewrite map_app, map_combine_ones by (rewrite firstn_length; lia). reflexivity.
Qed.
Lemma offset_unsqueeze k a i : offset (repeat 1%N k ++ a) (repeat 0%N k ++ i) = offset a i.
Proof. induction k as [|k IH]; cbn [repeat app offset]; [reflexivity|]. rewrite IH. lia. Qed.
Lemma get_unsqueeze {A} k (t : tensor A) i : get (unsqueeze k t) (repeat 0%N k ++ i) = get t i.
Proof. unfold get, unsqueeze. cbn. rewrite offset_unsqueeze. reflexivity. Qed.

Lemma broadcast2_unsqueeze_l {A B} (op : A -> A -> option B) k x y :
  (k + length (tshape x) <= length (tshape y))%nat ->
  broadcast2 op (unsqueeze k x) y = broadcast2 op x y.
Proof.
  intros H. unfold broadcast2. cbn [unsqueeze tshape].
  rewrite bshape_unsqueeze by exact H. destruct (bshape (tshape x) (tshape y)) as [s|] eqn:E; [|reflexivity].
  apply tab_ext. intros idx Hv. change (mkT (repeat 1%N k ++ tshape x) (tdata x)) with (unsqueeze k x).
  assert (L : length idx = length s) by (apply (Forall2_length Hv)).
  assert (Ls : length s = Nat.max (length (tshape x)) (length (tshape y))).
  { unfold bshape in E. destruct (brev (rev (tshape x)) (rev (tshape y))) as [r|] eqn:Er; [|discriminate].
    injection E as <-. rewrite rev_length, (brev_length _ _ _ Er), !rev_length. reflexivity. }
  rewrite bproj_unsqueeze by lia. rewrite get_unsqueeze. reflexivity.
Qed.
Lemma broadcast2_unsqueeze_r {A B} (op : A -> A -> option B) k x y :
  (k + length (tshape y) <= length (tshape x))%nat ->
  broadcast2 op x (unsqueeze k y) = broadcast2 op x y.
Proof. intros H. rewrite broadcast2_flip, broadcast2_unsqueeze_l by exact H. symmetry. apply broadcast2_flip. Qed.

Lemma unsqueeze_unsqueeze {A} j k (t : tensor A) : unsqueeze j (unsqueeze k t) = unsqueeze (j + k) t.
Proof. unfold unsqueeze. cbn. rewrite repeat_app, app_assoc. reflexivity. Qed.
Lemma unsqueeze_0 {A} (t : tensor A) : unsqueeze 0 t = t.
Proof. destruct t; reflexivity. Qed.

Lemma broadcast2_scalar_r {A B} (op : A -> A -> option B) x b : twf x ->
  broadcast2 op x (mkT [] [b]) = tmapo (fun a => op a b) x.
Proof.
  intros W. unfold broadcast2, tmapo, tab. cbn [tshape]. rewrite bshape_scalar.
  pose proof (tab_get x W) as G. unfold tab in G.
  destruct (mapo (get x) (indices (tshape x))) as [l|] eqn:E; [|discriminate].
  assert (Hl : l = tdata x) by (destruct x; cbn in *; injection G as ->; reflexivity).
  rewrite <- Hl, <- (mapo_bind _ (fun a => op a b) _ _ E). f_equal. apply mapo_ext. intros idx Hi.
  rewrite bproj_self by (apply indices_In; exact Hi). destruct (get x idx); reflexivity.
Qed.
Lemma broadcast2_scalar_l {A B} (op : A -> A -> option B) a y : twf y ->
  broadcast2 op (mkT [] [a]) y = tmapo (fun b => op a b) y.
Proof. intros W. rewrite broadcast2_flip, broadcast2_scalar_r by exact W. reflexivity. Qed.

Lemma twf_scalar {A} (t : tensor A) : twf t -> tshape t = [] -> exists x, t = mkT [] [x].
Proof.
  destruct t as [s data]. unfold twf. cbn. intros W ->. cbn in W.
  destruct data as [|x [|? ?]]; try discriminate. exists x. reflexivity.
Qed.

(** ** Elements *)
Definition meth (op : bop) : method :=
  match op with
  | OAdd => MAdd | OSub => MSub | OMul => MMul | ODiv => MDiv | OMod => MRemainder
  | OEqual => MEqual | OGreater => MGreater | OGreaterOrEqual => MGreaterEqual | OLess => MLower | OLessOrEqual => MLowerEqual
  | OAnd => MBoolAnd | OOr => MBoolOr | OXor => MNotEqual | OMax => MMaxPair | OMin => MMinPair
  | OBitAnd => MBitwiseAnd | OBitOr => MBitwiseOr | OBitXor => MBitwiseXor
  | OShiftLeft => MLeftShift | OShiftRight => MRightShift
  end.

Lemma SFcompare_swap a b : SFcompare b a = option_map CompOpp (SFcompare a b).
Proof.
  destruct a as [s|s| |s m e], b as [s'|s'| |s' m' e']; cbn; try reflexivity;
    try (destruct s, s'; reflexivity); try (destruct s; reflexivity); try (destruct s'; reflexivity).
  rewrite (Z.compare_antisym e e').
  pose proof (Pos.compare_cont_antisym m m' Eq) as H. change (CompOpp Eq) with Eq in H. rewrite <- H.
  destruct s, s'; cbn; try reflexivity; destruct (e ?= e'); cbn; try reflexivity;
    destruct (Pos.compare_cont Eq m m'); reflexivity.
Qed.
Lemma SFeqb_sym a b : SFeqb a b = SFeqb b a.
Proof. unfold SFeqb. rewrite (SFcompare_swap a b). destruct (SFcompare a b) as [[]|]; reflexivity. Qed.

Lemma onnx_burn d op x y r : onnx_elt d op x y = Some r -> burn_elt d (meth op) x y = Some r.
Proof.
  unfold onnx_elt, burn_elt. destruct x as [a|a|a], y as [b|b|b]; try discriminate.
  - destruct op; cbn [int_op meth burn_int]; try discriminate; try (intros H; exact H).
    + replace (if a <? b then b else a) with (Z.max a b) by (destruct (Z.ltb_spec a b); lia). auto.
    + replace (if b <? a then b else a) with (Z.min a b) by (destruct (Z.ltb_spec b a); lia). auto.
    + destruct (Z.ltb_spec a 0), (Z.ltb_spec b 0); cbn [orb]; try discriminate. auto.
    + destruct (Z.ltb_spec a 0), (Z.ltb_spec b 0); cbn [orb]; try discriminate. auto.
  - destruct op; cbn; try discriminate; auto.
    intros H. injection H as <-. destruct a, b; reflexivity.
  - destruct (float_format d) as [[p e]|]; [|discriminate].
    destruct op; cbn [float_op meth burn_float]; try discriminate; cbn [fits]; auto.
    + unfold SFltb. destruct (SFcompare a b) as [[]|]; try discriminate; auto. destruct (same_float a b); [auto|discriminate].
    + unfold SFltb. rewrite (SFcompare_swap a b). destruct (SFcompare a b) as [[]|]; cbn; try discriminate; auto. destruct (same_float a b); [auto|discriminate].
Qed.

(** The comparisons with the operands exchanged. *)
Definition meth_rev (op : bop) : method :=
  match op with
  | OGreater => MLower | OGreaterOrEqual => MLowerEqual | OLess => MGreater | OLessOrEqual => MGreaterEqual
  | op => meth op
  end.
Definition reversible (op : bop) : bool :=
  match op with
  | OEqual | OGreater | OGreaterOrEqual | OLess | OLessOrEqual | OBitAnd | OBitOr | OBitXor => true
  | _ => false
  end.
Lemma onnx_burn_rev d op x y r : reversible op = true ->
  onnx_elt d op x y = Some r -> burn_elt d (meth_rev op) y x = Some r.
Proof.
  intros Hr. unfold onnx_elt, burn_elt. destruct x as [a|a|a], y as [b|b|b]; try discriminate.
  - destruct op; try discriminate Hr; cbn [int_op meth_rev meth burn_int]; auto.
    + rewrite Z.eqb_sym. auto.
    + rewrite Z.land_comm. auto.
    + rewrite Z.lor_comm. auto.
    + rewrite Z.lxor_comm. auto.
  - destruct op; try discriminate Hr; cbn; try discriminate.
    intros H. injection H as <-. destruct a, b; reflexivity.
  - destruct (float_format d) as [[p e]|]; [|discriminate].
    destruct op; try discriminate Hr; cbn [float_op meth_rev meth burn_float fits]; try discriminate; auto.
    rewrite SFeqb_sym. auto.
Qed.

Definition infix_of (op : bop) : infix :=
  match op with
  | OAdd => IPlus | OSub => IMinus | OMul => ITimes | ODiv => ISlash | OMod => IPercent
  | OEqual => IEqEq | OGreater => IGt | OGreaterOrEqual => IGe | OLess => ILt | OLessOrEqual => ILe
  | OAnd => IAndAnd | OOr => IOrOr | OXor => ICaret
  | OBitAnd => IAmp | OBitOr => IBar | OBitXor => ICaret | OShiftLeft => IShl | OShiftRight => IShr
  | OMax | OMin => IPlus
  end.
Lemma onnx_native d op x y r : op <> OMod -> op <> OMax -> op <> OMin ->
  onnx_elt d op x y = Some r -> native_elt d (infix_of op) x y = Some r.
Proof.
  intros N1 N2 N3. unfold onnx_elt, native_elt. destruct x as [a|a|a], y as [b|b|b]; try discriminate.
  - destruct op; try congruence; cbn [int_op infix_of native_int]; try discriminate; try (intros H; exact H).
    + destruct (Z.ltb_spec a 0), (Z.ltb_spec b 0); cbn [orb]; try discriminate. auto.
    + destruct (Z.ltb_spec a 0), (Z.ltb_spec b 0); cbn [orb]; try discriminate. auto.
  - destruct op; cbn; try discriminate; auto.
  - destruct (float_format d) as [[p e]|]; [|discriminate].
    destruct op; try congruence; cbn [float_op infix_of native_float fits]; try discriminate; auto.
Qed.
Lemma onnx_infix_tensor d op x y r : op = OAdd \/ op = OSub \/ op = OMul ->
  onnx_elt d op x y = Some r -> infix_tensor_elt d (infix_of op) x y = Some r.
Proof.
  intros Hop H. apply onnx_native in H; try (intros ->; destruct Hop as [E | [E | E]]; discriminate E).
  destruct Hop as [-> | [-> | ->]]; exact H.
Qed.

Lemma in_dtype_int d z : fits d (EI z) = true -> in_dtype d (EI z).
Proof.
  cbn. destruct (int_range d) as [[lo hi]|]; [|discriminate]. intros H. exists lo, hi. split; [reflexivity|].
  apply andb_true_iff in H. lia.
Qed.
Definition out_dtype (d : dtype) (op : bop) : dtype := if is_compare op then BoolT else d.
Lemma onnx_elt_in_dtype d op x y r : in_dtype d x -> onnx_elt d op x y = Some r -> in_dtype (out_dtype d op) r.
Proof.
  intros Hx. unfold onnx_elt.
  match goal with |- match ?m with _ => _ end = _ -> _ => destruct m as [v|] eqn:E; [|discriminate] end.
  destruct (fits d v) eqn:F; [|discriminate]. intros H. injection H as <-.
  destruct x as [a|a|a], y as [b|b|b]; try discriminate.
  - assert (G : forall z, v = EI z -> is_compare op = false -> in_dtype (out_dtype d op) v).
    { intros z -> Hc. unfold out_dtype. rewrite Hc. apply in_dtype_int. exact F. }
    destruct op; cbn [int_op] in E; try discriminate E;
      try (injection E as <-; reflexivity); try (injection E as <-; eapply G; reflexivity).
    + destruct (b =? 0); [discriminate|]. injection E as <-. eapply G; reflexivity.
    + destruct (b =? 0); [discriminate|]. injection E as <-. eapply G; reflexivity.
    + destruct (_ || _)%bool; [discriminate|]. injection E as <-. eapply G; reflexivity.
    + destruct (_ || _)%bool; [discriminate|]. injection E as <-. eapply G; reflexivity.
  - cbn in Hx. subst d. destruct op; cbn in E; try discriminate E; injection E as <-; reflexivity.
  - destruct (float_format d) as [[p e]|] eqn:Fd; [|discriminate].
    assert (G : forall z, v = EF z -> is_compare op = false -> in_dtype (out_dtype d op) v).
    { intros z -> Hc. unfold out_dtype. rewrite Hc. cbn. eexists. exact Fd. }
    destruct op; cbn [float_op] in E; try discriminate E;
      try (injection E as <-; reflexivity); try (injection E as <-; eapply G; reflexivity).
    + destruct (SFcompare a b) as [[]|]; try discriminate E; try (destruct (same_float a b); [|discriminate E]); injection E as <-; eapply G; reflexivity.
    + destruct (SFcompare a b) as [[]|]; try discriminate E; try (destruct (same_float a b); [|discriminate E]); injection E as <-; eapply G; reflexivity.
Qed.

(** ** Array items *)
Definition upd (op : bop) : update :=
  match op with
  | OAdd => USatAdd | OSub => USatSub | OMul => USatMul | ODiv => UDivOr
  | OEqual => UEq | OGreater => UGt | OGreaterOrEqual => UGe | OLess => ULt | OLessOrEqual => ULe
  | OAnd => UAnd | OOr => UOr | _ => UXor
  end.
Definition upd_rev (op : bop) : update := match op with OSub => USatSubRev | ODiv => UDivOrRev | op => upd op end.

Lemma saturate_fits z : fits I64 (EI z) = true -> saturate z = z.
Proof. cbn. intros H. unfold saturate, imin, imax. lia. Qed.
Lemma quot_fits a b : fits I64 (EI (Z.quot a b)) = true -> b <> 0 -> div_i64 a b = Some (Z.quot a b).
Proof.
  intros H Hb. unfold div_i64, imin. destruct (Z.eqb_spec a (-9223372036854775808)); cbn [andb]; [|reflexivity].
  destruct (Z.eqb_spec b (-1)); [|reflexivity]. subst. exfalso. vm_compute in H. discriminate.
Qed.
Lemma item_arith op a b r : is_arith op = true -> onnx_elt I64 op (EI a) (EI b) = Some r ->
  exists z, r = EI z /\ item (upd op) a b = Some z /\ item (upd_rev op) b a = Some z.
Proof.
  intros Ha. unfold onnx_elt.
  destruct op; try discriminate Ha; cbn [int_op]; clear Ha.
  - destruct (fits I64 _) eqn:F; [|discriminate]. intros H. injection H as <-. eexists. split; [reflexivity|].
    cbn [upd upd_rev item]. rewrite (Z.add_comm b a), saturate_fits by exact F. auto.
  - destruct (fits I64 _) eqn:F; [|discriminate]. intros H. injection H as <-. eexists. split; [reflexivity|].
    cbn [upd upd_rev item]. rewrite saturate_fits by exact F. auto.
  - destruct (fits I64 _) eqn:F; [|discriminate]. intros H. injection H as <-. eexists. split; [reflexivity|].
    cbn [upd upd_rev item]. rewrite (Z.mul_comm b a), saturate_fits by exact F. auto.
  - destruct (Z.eqb_spec b 0) as [|Hb]; [discriminate|].
    destruct (fits I64 _) eqn:F; [|discriminate]. intros H. injection H as <-. eexists. split; [reflexivity|].
    cbn [upd upd_rev item]. destruct (Z.eqb_spec b 0); [contradiction|]. rewrite quot_fits by assumption. auto.
Qed.
Definition bit (z : Z) : Prop := z = 0 \/ z = 1.
Lemma item_compare op a b r : is_compare op = true -> onnx_elt I64 op (EI a) (EI b) = Some r ->
  exists z, r = EB (z =? 1) /\ bit z /\ item (upd op) a b = Some z.
Proof.
  intros Hc. unfold onnx_elt, bit.
  destruct op; try discriminate Hc; cbn [int_op fits]; intros H; injection H as <-; cbn [upd item];
    match goal with |- context [if ?c then 1 else 0] => exists (if c then 1 else 0); destruct c end; auto.
Qed.
Definition on_bools (op : bop) : bool := match op with OAnd | OOr | OXor | OEqual => true | _ => false end.
Lemma item_bool op a b r : bit a -> bit b -> onnx_elt BoolT op (EB (a =? 1)) (EB (b =? 1)) = Some r ->
  on_bools op = true /\ exists z, r = EB (z =? 1) /\ bit z /\ item (upd op) a b = Some z.
Proof.
  unfold onnx_elt. intros Ha Hb.
  destruct op; cbn [bool_op]; try discriminate; cbn [fits]; intros H; injection H as <-; (split; [reflexivity|]);
    destruct Ha as [-> | ->], Hb as [-> | ->]; cbn; eexists; (split; [|split; [|reflexivity]]); unfold bit; auto.
Qed.

Lemma zip_update_spec u (conv conv' : Z -> elt) (f : elt -> elt -> option elt) (P Q : Z -> Prop) :
  (forall a b r, P a -> P b -> f (conv a) (conv b) = Some r ->
     exists z, r = conv' z /\ Q z /\ item u a b = Some z) ->
  forall la lb l, Forall P la -> Forall P lb -> length la = length lb ->
  mapo (fun ab => f (fst ab) (snd ab)) (combine (map conv la) (map conv lb)) = Some l ->
  exists lz, zip_update u la lb = Some lz /\ l = map conv' lz /\ length lz = length la /\ Forall Q lz.
Proof.
  intros H. induction la as [|a la IH]; intros [|b lb] l Pa Pb L E; cbn in *; try discriminate.
  - injection E as <-. exists []. repeat split; auto.
  - inversion Pa; subst. inversion Pb; subst.
    destruct (f (conv a) (conv b)) as [r|] eqn:Er; [|discriminate].
    destruct (mapo _ (combine _ _)) as [rs|] eqn:Ers; [|discriminate]. injection E as <-.
    destruct (H a b r) as (z & -> & Hq & ->); auto.
    destruct (IH lb rs) as (lz & -> & -> & Hl & Hf); auto; try lia.
    exists (z :: lz). cbn. repeat split; auto.
Qed.

(** Two one-dimensional tensors of one length. *)
Lemma indices_1 n : indices [n] = map (fun i => [i]) (upto n).
Proof. cbn. induction (upto n) as [|i l IH]; cbn; [reflexivity|]. rewrite IH. reflexivity. Qed.
Lemma mapo_combine {A B C} (f : A -> B -> option C) : forall (la : list A) (lb : list B) pa pb,
  length la = length lb -> length pa = length pb ->
  mapo (fun k => match nth_error (pa ++ la) k, nth_error (pb ++ lb) k with Some a, Some b => f a b | _, _ => None end)
       (seq (length pa) (length la)) =
  mapo (fun ab => f (fst ab) (snd ab)) (combine la lb).
Proof.
  induction la as [|a la IH]; intros [|b lb] pa pb H Hp; cbn in *; try discriminate; [reflexivity|].
  rewrite !nth_error_app2, Nat.sub_diag, Hp, Nat.sub_diag by lia. cbn.
  destruct (f a b) as [r|]; [|reflexivity].
  specialize (IH lb (pa ++ [a]) (pb ++ [b])). rewrite <- !app_assoc in IH. cbn [app] in IH.
  rewrite !app_length in IH. cbn [length] in IH. rewrite Nat.add_1_r in IH. rewrite <- Hp.
  rewrite IH by lia. reflexivity.
Qed.
Lemma bproj_1 n i : (i < n)%N -> bproj [n] [i] = [i].
Proof. intros H. apply bproj_self. constructor; [exact H|constructor]. Qed.
Lemma broadcast2_1d {A B} (op : A -> A -> option B) n la lb : N.of_nat (length la) = n -> N.of_nat (length lb) = n ->
  broadcast2 op (mkT [n] la) (mkT [n] lb) =
  option_map (mkT [n]) (mapo (fun ab => op (fst ab) (snd ab)) (combine la lb)).
Proof.
  intros Ha Hb. unfold broadcast2. cbn [tshape].
  assert (Eb : bshape [n] [n] = Some [n]) by (unfold bshape; cbn; unfold bdim; rewrite N.eqb_refl; reflexivity).
  rewrite Eb. unfold tab. f_equal. rewrite indices_1, mapo_map. unfold upto. rewrite mapo_map.
  rewrite <- (mapo_combine op la lb [] []) by (cbn; lia).
  replace (N.to_nat n) with (length la) by lia. apply mapo_ext. intros k Hk. apply in_seq in Hk. cbn [length] in Hk.
  rewrite bproj_1 by lia. unfold get. cbn [tshape tdata offset prodN].
  replace (N.to_nat (N.of_nat k * 1 + 0)) with k by lia. reflexivity.
Qed.

(** ** Device values *)
Lemma brev_self a : brev a a = Some a.
Proof. induction a as [|x a IH]; cbn; [reflexivity|]. unfold bdim. rewrite N.eqb_refl, IH. reflexivity. Qed.
Lemma bshape_self a : bshape a a = Some a.
Proof. unfold bshape. rewrite brev_self. cbn. rewrite rev_involutive. reflexivity. Qed.
Lemma broadcast2_const {A B} (op : A -> A -> option B) a y : twf y ->
  broadcast2 op (mkT (tshape y) (map (fun _ => a) (tdata y))) y = broadcast2 op (mkT [] [a]) y.
Proof.
  intros W. unfold broadcast2. cbn [tshape]. rewrite bshape_self.
  replace (bshape [] (tshape y)) with (Some (tshape y)) by (rewrite bshape_comm, bshape_scalar; reflexivity).
  apply tab_ext. intros idx Hv. rewrite bproj_self by exact Hv.
  replace (get (mkT (tshape y) (map (fun _ => a) (tdata y))) idx) with (Some a); [reflexivity|].
  unfold get. cbn [tshape tdata]. rewrite nth_error_map.
  destruct (get_valid y idx W Hv) as (b & Hb & _). unfold get in Hb. rewrite Hb. reflexivity.
Qed.

Lemma twf_unsqueeze {A} k (t : tensor A) : twf t -> twf (unsqueeze k t).
Proof.
  unfold twf, unsqueeze. cbn. intros ->. f_equal. induction k as [|k IH]; cbn [repeat app prodN]; [reflexivity|].
  rewrite <- IH. lia.
Qed.
Lemma tmapo_unsqueeze {A B} (f : A -> option B) k t : tmapo f (unsqueeze k t) = option_map (unsqueeze k) (tmapo f t).
Proof. unfold tmapo, unsqueeze. cbn. destruct (mapo f (tdata t)); reflexivity. Qed.
Lemma tmapo_mono {A B} (f g : A -> option B) t r : (forall x y, In x (tdata t) -> f x = Some y -> g x = Some y) ->
  tmapo f t = Some r -> tmapo g t = Some r.
Proof.
  unfold tmapo. intros H. destruct (mapo f (tdata t)) as [l|] eqn:E; [|discriminate].
  rewrite (mapo_mono f g _ l H E). auto.
Qed.
Lemma tmapo_map {A B} (f : A -> option B) (g : A -> B) t r : (forall x y, In x (tdata t) -> f x = Some y -> y = g x) ->
  tmapo f t = Some r -> r = mkT (tshape t) (map g (tdata t)).
Proof.
  unfold tmapo. intros H. destruct (mapo f (tdata t)) as [l|] eqn:E; [|discriminate]. intros Hr. injection Hr as <-.
  f_equal. clear -H E. revert l H E. induction (tdata t) as [|a d IH]; intros l H E; cbn in *; [congruence|].
  destruct (f a) as [y|] eqn:Ea; [|discriminate]. destruct (mapo f d) as [ys|]; [|discriminate]. injection E as <-.
  rewrite (H a y (or_introl eq_refl) Ea), (IH ys); auto.
Qed.

Definition lead (ty : argty) : nat := match ty with ScalarTensor _ => 1 | _ => 0 end.
Lemma device_value d ty v t : on_device ty = true -> stands_for d ty v t ->
  v = RTensor (unsqueeze (lead ty) t) /\ rank_of ty = N.of_nat (length (tshape (unsqueeze (lead ty) t))) /\
  (is_tensor_ty ty = true /\ rank_of ty = N.of_nat (length (tshape t)) \/ tshape t = [] /\ ty = ScalarTensor d).
Proof.
  intros Hd (W & _ & H). destruct ty as [d'|d'|n|y], v as [t'|x|l]; try discriminate Hd; try contradiction.
  - destruct H as (-> & Hs & ->). unfold unsqueeze. cbn. rewrite Hs. auto.
  - destruct H as (-> & _ & Hr & _). cbn [lead]. rewrite unsqueeze_0. cbn. auto.
Qed.

(** ** The recorded type *)
Definition elem_ok (d : dtype) (ty : argty) : Prop :=
  match ty with
  | TensorT y => tt_dtype y = d /\ tt_rank y <> 0%N
  | ScalarTensor d' | ScalarNative d' => d' = d
  | ShapeT _ => True
  end.
Lemma stands_elem d ty v t : stands_for d ty v t -> elem_ok d ty.
Proof. intros (_ & _ & H). destruct ty, v; try contradiction; cbn; intuition. Qed.

Lemma infer_tensor d op lty rty : is_tensor_ty lty || is_tensor_ty rty = true -> elem_ok d lty -> elem_ok d rty ->
  exists s, infer_binary op lty rty = Some (TensorT (mkTT (out_dtype d op) (N.max (rank_of lty) (rank_of rty)) s)) /\
            N.max (rank_of lty) (rank_of rty) <> 0%N.
Proof.
  intros Ht Hl Hr. unfold infer_binary, broadcast_output_type.
  assert (Ed : broadcast_dtype [lty; rty] (if is_compare op then Some BoolT else None) = Some (out_dtype d op)).
  { unfold out_dtype. destruct (is_compare op); [reflexivity|].
    destruct lty, rty; try discriminate Ht; cbn in *; intuition congruence. }
  rewrite Ed. cbn [existsb]. rewrite !orb_false_r, Ht, andb_false_r.
  assert (Er : compute_broadcast_rank [lty; rty] = N.max (rank_of lty) (rank_of rty)).
  { destruct lty, rty; cbn; lia. }
  rewrite Er.
  assert (Nz : N.max (rank_of lty) (rank_of rty) <> 0%N) by (destruct lty, rty; try discriminate Ht; cbn in *; lia).
  apply N.eqb_neq in Nz. rewrite Nz. cbn [negb andb]. eexists. split; [reflexivity|]. apply N.eqb_neq. exact Nz.
Qed.
Lemma infer_scalars d op lty rty :
  match lty, rty with
  | ScalarTensor a, (ScalarTensor b | ScalarNative b) | ScalarNative a, ScalarTensor b => a = d /\ b = d
  | _, _ => False end ->
  infer_binary op lty rty = Some (ScalarTensor (out_dtype d op)).
Proof.
  unfold infer_binary, out_dtype. intros H.
  destruct lty, rty; try contradiction; destruct H as [-> ->]; destruct (is_compare op); reflexivity.
Qed.

Lemma stands_tensor d t r s : twf t -> Forall (in_dtype d) (tdata t) -> N.of_nat (length (tshape t)) = r -> r <> 0%N ->
  stands_for d (TensorT (mkTT d r s)) (RTensor t) t.
Proof. intros W F L N. split; [exact W|]. split; [exact F|]. cbn. auto. Qed.
Lemma stands_scalar d t : twf t -> Forall (in_dtype d) (tdata t) -> tshape t = [] ->
  stands_for d (ScalarTensor d) (RTensor (unsqueeze 1 t)) t.
Proof. intros W F S. split; [exact W|]. split; [exact F|]. cbn. unfold unsqueeze. rewrite S. auto. Qed.

Lemma native_value d d' v t : stands_for d (ScalarNative d') v t -> d' = d /\ exists x, v = RNative x /\ t = mkT [] [x].
Proof. intros (_ & _ & H). destruct v as [|x|]; try contradiction. destruct H as [-> ->]. eauto. Qed.
Lemma array_value d n v t : stands_for d (ShapeT n) v t ->
  exists l, v = RShape l /\ N.of_nat (length l) = n /\
  (d = I64 /\ t = mkT [n] (map EI l) \/
   d = BoolT /\ t = mkT [n] (map (fun z => EB (z =? 1)) l) /\ Forall (fun z => z = 0 \/ z = 1) l).
Proof. intros (_ & _ & H). destruct v as [| |l]; try contradiction. exists l. destruct H as [H1 H2]. auto. Qed.
Lemma tensor_value d y v t : stands_for d (TensorT y) v t ->
  v = RTensor t /\ tt_dtype y = d /\ N.of_nat (length (tshape t)) = tt_rank y.
Proof. intros (_ & _ & H). destruct v as [t'| |]; try contradiction. destruct H as (-> & H1 & H2 & _). auto. Qed.

Section Pair.
  Variables (d : dtype) (op : bop) (lty rty : argty) (vl vr : rv) (tl tr t : tensor elt).
  Hypothesis Hl : stands_for d lty vl tl.
  Hypothesis Hr : stands_for d rty vr tr.
  Hypothesis Ht : onnx_binary d op tl tr = Some t.

  Lemma result_facts : twf t /\ Forall (in_dtype (out_dtype d op)) (tdata t) /\
    length (tshape t) = Nat.max (length (tshape tl)) (length (tshape tr)).
  Proof.
    apply (broadcast2_facts (onnx_elt d op) tl tr t); [|exact Ht].
    intros a b r Ha _ H. eapply onnx_elt_in_dtype; [|exact H].
    destruct Hl as (_ & F & _). rewrite Forall_forall in F. apply F. exact Ha.
  Qed.

  Definition done (c : code) : Prop :=
    exists ty v, infer_binary op lty rty = Some ty /\ run d vl vr c = Some v /\ stands_for (out_dtype d op) ty v t.

  Lemma done_tensor c : is_tensor_ty lty || is_tensor_ty rty = true ->
    N.of_nat (length (tshape t)) = N.max (rank_of lty) (rank_of rty) ->
    run d vl vr c = Some (RTensor t) -> done c.
  Proof.
    intros T L Hc. destruct (infer_tensor d op lty rty T (stands_elem _ _ _ _ Hl) (stands_elem _ _ _ _ Hr)) as (s & Hi & Nz).
    destruct result_facts as (W & F & _). eexists. eexists. split; [exact Hi|]. split; [exact Hc|].
    apply stands_tensor; auto.
  Qed.
  Lemma done_scalar c :
    match lty, rty with
    | ScalarTensor a, (ScalarTensor b | ScalarNative b) | ScalarNative a, ScalarTensor b => a = d /\ b = d
    | _, _ => False end ->
    tshape t = [] -> run d vl vr c = Some (RTensor (unsqueeze 1 t)) -> done c.
  Proof.
    intros T S Hc. destruct result_facts as (W & F & _). eexists. eexists. split; [apply infer_scalars; exact T|].
    split; [exact Hc|]. apply stands_scalar; auto.
  Qed.

  (** Two device operands. *)
  Lemma pair_run m : (forall x y r, onnx_elt d op x y = Some r -> burn_elt d m x y = Some r) ->
    on_device lty = true -> on_device rty = true -> done (device_pair m lty rty).
  Proof.
    intros Hm Dl Dr.
    destruct (device_value _ _ _ _ Dl Hl) as (El & Rl & Cl). destruct (device_value _ _ _ _ Dr Hr) as (Er & Rr & Cr).
    assert (Hb : broadcast2 (burn_elt d m) tl tr = Some t).
    { eapply broadcast2_mono; [|exact Ht]. intros a b r _ _. apply Hm. }
    destruct result_facts as (W & F & Lt).
    assert (RL : rank_of lty = N.of_nat (lead lty + length (tshape tl)))
      by (rewrite Rl; cbn [unsqueeze tshape]; rewrite app_length, repeat_length; reflexivity).
    assert (RR : rank_of rty = N.of_nat (lead rty + length (tshape tr)))
      by (rewrite Rr; cbn [unsqueeze tshape]; rewrite app_length, repeat_length; reflexivity).
    assert (Ks : forall k (x : tensor elt), length (tshape (unsqueeze k x)) = (k + length (tshape x))%nat)
      by (intros; cbn; rewrite app_length, repeat_length; reflexivity).
    destruct Cl as [[Tl Ll]|[Sl Tl]].
    - assert (Jl : lead lty = O) by (destruct lty; try discriminate Tl; reflexivity).
      apply done_tensor; [rewrite Tl; reflexivity|destruct Cr as [[_ ?]|[S ?]]; [lia|]; rewrite S in *; subst rty; cbn in *;
        destruct (infer_tensor d op lty (ScalarTensor d)) as (_ & _ & Nz); [rewrite Tl; reflexivity|eapply stands_elem; exact Hl|reflexivity|]; cbn in Nz|].
      + destruct (tshape tl) eqn:Es; cbn in *; [|lia]. exfalso.
        pose proof (stands_elem _ _ _ _ Hl) as Q. destruct lty; try discriminate Tl. cbn in *. lia.
      + rewrite Jl in *. rewrite unsqueeze_0 in *. unfold device_pair.
        destruct (N.eqb_spec (rank_of lty) (rank_of rty)) as [E|E].
        * unfold run, deval, var. rewrite El, Er.
          replace (Nat.eqb _ _) with true by (symmetry; apply Nat.eqb_eq; rewrite Ks; lia).
          destruct (lead rty) as [|k] eqn:Jr.
          -- rewrite unsqueeze_0, Hb. reflexivity.
          -- rewrite broadcast2_unsqueeze_r by lia. rewrite Hb. reflexivity.
        * destruct (N.ltb_spec (rank_of rty) (rank_of lty)).
          -- unfold run, deval, var. rewrite El, Er. cbn [option_map]. rewrite unsqueeze_unsqueeze.
             replace (Nat.eqb _ _) with true by (symmetry; apply Nat.eqb_eq; rewrite Ks; lia).
             rewrite broadcast2_unsqueeze_r by lia. rewrite Hb. reflexivity.
          -- unfold run, deval, var. rewrite El, Er. cbn [option_map].
             replace (Nat.eqb _ _) with true by (symmetry; apply Nat.eqb_eq; rewrite !Ks; lia).
             rewrite broadcast2_unsqueeze_l by (rewrite Ks; lia).
             destruct Cr as [[Tr _]|[_ ->]].
             ++ replace (lead rty) with O by (destruct rty; try discriminate Tr; reflexivity).
                rewrite unsqueeze_0, Hb. reflexivity.
             ++ exfalso. pose proof (stands_elem _ _ _ _ Hl) as Q. destruct lty; try discriminate Tl. cbn in *. lia.
    - destruct Cr as [[Tr Lr]|[Sr Tr]].
      + assert (Jr : lead rty = O) by (destruct rty; try discriminate Tr; reflexivity).
        assert (Nz : rank_of rty <> 0%N).
        { pose proof (stands_elem _ _ _ _ Hr) as Q. destruct rty; try discriminate Tr. cbn in *. apply Q. }
        apply done_tensor; [rewrite Tr; apply orb_true_r|rewrite Sl in *; rewrite Tl in *; cbn in *; lia|].
        rewrite Jr in *. rewrite unsqueeze_0 in *. assert (lead lty = 1%nat) by (rewrite Tl; reflexivity).
        assert (length (tshape tl) = 0%nat) by (rewrite Sl; reflexivity).
        unfold device_pair. destruct (N.eqb_spec (rank_of lty) (rank_of rty)) as [E|E].
        * unfold run, deval, var. rewrite El, Er.
          replace (Nat.eqb _ _) with true by (symmetry; apply Nat.eqb_eq; rewrite Ks; lia).
          rewrite broadcast2_unsqueeze_l by lia. rewrite Hb. reflexivity.
        * destruct (N.ltb_spec (rank_of rty) (rank_of lty)); [lia|].
          unfold run, deval, var. rewrite El, Er. cbn [option_map]. rewrite unsqueeze_unsqueeze.
          replace (Nat.eqb _ _) with true by (symmetry; apply Nat.eqb_eq; rewrite Ks; lia).
          rewrite broadcast2_unsqueeze_l by lia. rewrite Hb. reflexivity.
      + assert (St : tshape t = []) by (rewrite Sl, Sr in Lt; destruct (tshape t); [reflexivity|discriminate]).
        apply done_scalar; [rewrite Tl, Tr; auto|exact St|].
        rewrite Tl, Tr in *. unfold device_pair. cbn [rank_of lead N.eqb Pos.eqb] in *.
        unfold run, deval, var. rewrite El, Er.
        destruct (twf_scalar tl (proj1 Hl) Sl) as (x & ->). destruct (twf_scalar tr (proj1 Hr) Sr) as (y & ->).
        rewrite broadcast2_scalar_r in Hb by reflexivity.
        replace (Nat.eqb _ _) with true by reflexivity.
        rewrite broadcast2_unsqueeze_l by (cbn; lia). rewrite broadcast2_scalar_l by reflexivity.
        unfold tmapo in Hb |- *. cbn in Hb |- *. destruct (burn_elt d m x y) as [r|]; [|discriminate Hb].
        cbn in Hb. injection Hb as <-. reflexivity.
  Qed.

  (** A device operand and a native scalar. *)
  Lemma device_native_done c d' : on_device lty = true -> rty = ScalarNative d' ->
    (forall x y, vl = RTensor y -> vr = RNative x -> twf y ->
       forall r, tmapo (fun a => onnx_elt d op a x) y = Some r -> run d vl vr c = Some (RTensor r)) -> done c.
  Proof.
    intros Dl Er Hc. destruct (device_value _ _ _ _ Dl Hl) as (El & Rl & Cl).
    pose proof Hr as Hr'. rewrite Er in Hr'. assert (Hx : exists x, vr = RNative x /\ tr = mkT [] [x]).
    { destruct Hr' as (_ & _ & H). destruct vr as [|x|]; try contradiction. exists x. split; [reflexivity|apply H]. }
    destruct Hx as (x & Ev & Etr).
    assert (Ed : d' = d) by (apply (stands_elem _ _ _ _ Hr')).
    pose proof Ht as Hm. unfold onnx_binary in Hm. rewrite Etr, broadcast2_scalar_r in Hm by (apply Hl).
    assert (Hu : tmapo (fun a => onnx_elt d op a x) (unsqueeze (lead lty) tl) = Some (unsqueeze (lead lty) t))
      by (rewrite tmapo_unsqueeze, Hm; reflexivity).
    specialize (Hc x _ El Ev (twf_unsqueeze _ _ (proj1 Hl)) _ Hu).
    destruct result_facts as (_ & _ & Lt). rewrite Etr in Lt. cbn [tshape length] in Lt. rewrite Nat.max_0_r in Lt.
    destruct Cl as [[Tl Ll]|[Sl Tl]].
    - replace (lead lty) with O in Hc by (destruct lty; try discriminate Tl; reflexivity). rewrite unsqueeze_0 in Hc.
      apply done_tensor; [rewrite Tl; reflexivity| |exact Hc]. rewrite Er. cbn [rank_of]. lia.
    - apply done_scalar; [rewrite Tl, Er; auto| |].
      + rewrite Sl in Lt. destruct (tshape t); [reflexivity|discriminate].
      + rewrite Tl in Hc. exact Hc.
  Qed.
  Lemma native_device_done c d' : on_device rty = true -> lty = ScalarNative d' ->
    (forall x y, vr = RTensor y -> vl = RNative x -> twf y ->
       forall r, tmapo (fun b => onnx_elt d op x b) y = Some r -> run d vl vr c = Some (RTensor r)) -> done c.
  Proof.
    intros Dl Er Hc. destruct (device_value _ _ _ _ Dl Hr) as (El & Rl & Cl).
    pose proof Hl as Hl'. rewrite Er in Hl'. assert (Hx : exists x, vl = RNative x /\ tl = mkT [] [x]).
    { destruct Hl' as (_ & _ & H). destruct vl as [|x|]; try contradiction. exists x. split; [reflexivity|apply H]. }
    destruct Hx as (x & Ev & Etr).
    assert (Ed : d' = d) by (apply (stands_elem _ _ _ _ Hl')).
    pose proof Ht as Hm. unfold onnx_binary in Hm. rewrite Etr, broadcast2_scalar_l in Hm by (apply Hr).
    assert (Hu : tmapo (fun b => onnx_elt d op x b) (unsqueeze (lead rty) tr) = Some (unsqueeze (lead rty) t))
      by (rewrite tmapo_unsqueeze, Hm; reflexivity).
    specialize (Hc x _ El Ev (twf_unsqueeze _ _ (proj1 Hr)) _ Hu).
    destruct result_facts as (_ & _ & Lt). rewrite Etr in Lt. cbn [tshape length] in Lt. cbn [Nat.max] in Lt.
    destruct Cl as [[Tl Ll]|[Sl Tl]].
    - replace (lead rty) with O in Hc by (destruct rty; try discriminate Tl; reflexivity). rewrite unsqueeze_0 in Hc.
      apply done_tensor; [rewrite Tl; apply orb_true_r| |exact Hc]. rewrite Er. cbn [rank_of]. lia.
    - apply done_scalar; [rewrite Tl, Er; auto| |].
      + rewrite Sl in Lt. destruct (tshape t); [reflexivity|discriminate].
      + rewrite Tl in Hc. exact Hc.
  Qed.

  (** Arrays. *)
  Lemma native_native_done c : (exists a b, lty = ScalarNative a /\ rty = ScalarNative b) ->
    (forall x y r, vl = RNative x -> vr = RNative y -> onnx_elt d op x y = Some r -> run d vl vr c = Some (RNative r)) ->
    done c.
  Proof.
    intros (a & b & El & Er) Hc. pose proof Hl as Hl'. pose proof Hr as Hr'. rewrite El in Hl'. rewrite Er in Hr'.
    destruct (native_value _ _ _ _ Hl') as (-> & x & Vl & E1). destruct (native_value _ _ _ _ Hr') as (-> & y & Vr & E2).
    pose proof Ht as Hm. unfold onnx_binary in Hm.
    rewrite E1, E2, broadcast2_scalar_r in Hm by reflexivity. unfold tmapo in Hm. cbn in Hm.
    destruct (onnx_elt d op x y) as [r|] eqn:Eo; [|discriminate Hm]. cbn in Hm. injection Hm as Hm.
    specialize (Hc x y r Vl Vr Eo).
    exists (ScalarNative (out_dtype d op)), (RNative r). split; [|split; [exact Hc|]].
    - rewrite El, Er. unfold infer_binary, out_dtype. destruct (is_compare op); reflexivity.
    - destruct result_facts as (W & F & _). split; [exact W|]. split; [exact F|]. cbn. split; [reflexivity|]. congruence.
  Qed.

  Lemma shape_shape_done n : lty = ShapeT n -> rty = ShapeT n ->
    (is_arith op || is_compare op || is_logic op = true)%bool -> done (CZip (upd op)).
  Proof.
    intros El Er Hop. pose proof Hl as Hl'. pose proof Hr as Hr'. rewrite El in Hl'. rewrite Er in Hr'.
    destruct (array_value _ _ _ _ Hl') as (la & Vl & L1 & H1). destruct (array_value _ _ _ _ Hr') as (lb & Vr & L2 & H2).
    destruct result_facts as (W & F & _).
    assert (Ei : infer_binary op lty rty = Some (ShapeT n)) by (rewrite El, Er; reflexivity).
    pose proof Ht as Hm. unfold onnx_binary in Hm.
    destruct H1 as [[E1 T1]|(E1 & T1 & B1)]; destruct H2 as [[E2 T2]|(E2 & T2 & B2)]; try congruence.
    - rewrite T1, T2, broadcast2_1d in Hm by (rewrite map_length; assumption).
      destruct (mapo _ (combine _ _)) as [l|] eqn:Em; [|discriminate Hm]. cbn in Hm. injection Hm as Hm.
      destruct (is_compare op) eqn:Hc.
      + destruct (zip_update_spec (upd op) EI (fun z => EB (z =? 1)) (onnx_elt d op) (fun _ => True) bit) with (la := la) (lb := lb) (l := l)
          as (lz & Hz & Hlz & Ll & Fb); auto; try lia.
        { intros a b r _ _ H. rewrite E1 in H. destruct (item_compare op a b r Hc H) as (z & ? & ? & ?). eauto. }
        { apply Forall_forall. auto. } { apply Forall_forall. auto. }
        exists (ShapeT n), (RShape lz). split; [exact Ei|]. split; [cbn [run]; rewrite Vl, Vr, Hz; reflexivity|].
        split; [exact W|]. split; [exact F|]. cbn. split; [lia|]. right. unfold out_dtype. rewrite Hc.
        split; [reflexivity|]. split; [rewrite <- Hm, Hlz; reflexivity|exact Fb].
      + destruct (zip_update_spec (upd op) EI EI (onnx_elt d op) (fun _ => True) (fun _ => True)) with (la := la) (lb := lb) (l := l)
          as (lz & Hz & Hlz & Ll & _); auto; try lia.
        { intros a b r _ _ H. rewrite E1 in H.
          destruct (is_arith op) eqn:Ha; [|destruct op; try discriminate Ha; try discriminate Hc; try discriminate Hop; discriminate H].
          destruct (item_arith op a b r Ha H) as (z & ? & ? & _). eauto. }
        { apply Forall_forall. auto. } { apply Forall_forall. auto. }
        exists (ShapeT n), (RShape lz). split; [exact Ei|]. split; [cbn [run]; rewrite Vl, Vr, Hz; reflexivity|].
        split; [exact W|]. split; [exact F|]. cbn. split; [lia|]. left. unfold out_dtype. rewrite Hc.
        split; [exact E1|]. rewrite <- Hm, Hlz. reflexivity.
    - rewrite T1, T2, broadcast2_1d in Hm by (rewrite map_length; assumption).
      destruct (mapo _ (combine _ _)) as [l|] eqn:Em; [|discriminate Hm]. cbn in Hm. injection Hm as Hm.
      destruct (zip_update_spec (upd op) (fun z => EB (z =? 1)) (fun z => EB (z =? 1)) (onnx_elt d op) bit bit) with (la := la) (lb := lb) (l := l)
          as (lz & Hz & Hlz & Ll & Fb); auto; try lia.
      { intros a b r Ha Hb H. rewrite E1 in H. destruct (item_bool op a b r Ha Hb H) as (_ & z & ? & ? & ?). eauto. }
      exists (ShapeT n), (RShape lz). split; [exact Ei|]. split; [cbn [run]; rewrite Vl, Vr, Hz; reflexivity|].
      split; [exact W|]. split; [exact F|]. cbn. split; [lia|]. right. unfold out_dtype.
      split; [rewrite E1; destruct (is_compare op); reflexivity|]. split; [rewrite <- Hm, Hlz; reflexivity|exact Fb].
  Qed.
End Pair.

Lemma each_items u z (g : elt -> option elt) : forall la l,
  (forall a r, In a la -> g (EI a) = Some r -> exists y, r = EI y /\ item u a z = Some y) ->
  mapo g (map EI la) = Some l ->
  exists lz, mapo (fun r => item u r z) la = Some lz /\ l = map EI lz /\ length lz = length la.
Proof.
  induction la as [|a la IH]; intros l H E; cbn in *.
  - injection E as <-. exists []. auto.
  - destruct (g (EI a)) as [r|] eqn:Er; [|discriminate]. destruct (mapo g (map EI la)) as [rs|] eqn:Ers; [|discriminate].
    injection E as <-. destruct (H a r (or_introl eq_refl) Er) as (y & -> & ->).
    destruct (IH rs) as (lz & -> & -> & L); auto. exists (y :: lz). cbn. auto.
Qed.
Lemma int64_elt x : in_dtype I64 x -> exists z, x = EI z.
Proof. destruct x as [z|b|f]; cbn; [eauto|discriminate|]. intros [f' H]. discriminate. Qed.

(** A scalar, native or on the device. *)
Definition scalar_ty (ty : argty) : Prop := ty = ScalarNative I64 \/ ty = ScalarTensor I64.
Lemma scalar_value d ty v t : scalar_ty ty -> stands_for d ty v t ->
  d = I64 /\ exists z, t = mkT [] [EI z] /\ scalar_i64 v = Some z.
Proof.
  intros [-> | ->] (W & F & H); destruct v as [t'|x|l]; try contradiction.
  - destruct H as [<- ->]. split; [reflexivity|]. inversion F as [|? ? Hx _]; subst.
    destruct (int64_elt x Hx) as (z & ->). exists z. auto.
  - destruct H as (<- & S & ->). split; [reflexivity|]. destruct (twf_scalar t W S) as (x & ->).
    inversion F as [|? ? Hx _]; subst. destruct (int64_elt x Hx) as (z & ->). exists z. auto.
Qed.
Lemma shape_value n v t : stands_for I64 (ShapeT n) v t ->
  exists l, v = RShape l /\ N.of_nat (length l) = n /\ t = mkT [n] (map EI l).
Proof.
  intros (_ & _ & H). destruct v as [| |l]; try contradiction. exists l. destruct H as [L [[_ H]|[H _]]]; [auto|discriminate].
Qed.

Section Arrays.
  Variables (d : dtype) (op : bop) (lty rty : argty) (vl vr : rv) (tl tr t : tensor elt).
  Hypothesis Hl : stands_for d lty vl tl.
  Hypothesis Hr : stands_for d rty vr tr.
  Hypothesis Ht : onnx_binary d op tl tr = Some t.
  Hypothesis Ha : is_arith op = true.

  Lemma shape_scalar_done n : lty = ShapeT n -> scalar_ty rty -> done d op lty rty vl vr t (CEach (upd op) L R).
  Proof.
    intros El Sr. destruct (scalar_value _ _ _ _ Sr Hr) as (Ed & z & Et & Ev).
    pose proof Hl as Hl'. rewrite El, Ed in Hl'. destruct (shape_value _ _ _ Hl') as (la & Vl & Ln & Tl).
    destruct (result_facts d op lty vl tl tr t Hl Ht) as (W & F & _).
    pose proof Ht as Hm. unfold onnx_binary in Hm. rewrite Et, broadcast2_scalar_r in Hm by (apply Hl).
    rewrite Tl in Hm. unfold tmapo in Hm. cbn [tdata tshape] in Hm.
    destruct (mapo _ (map EI la)) as [l|] eqn:Em; [|discriminate Hm]. cbn in Hm. injection Hm as Hm.
    destruct (each_items (upd op) z (fun a => onnx_elt d op a (EI z)) la l) with (2 := Em) as (lz & Hz & Hlz & Ll).
    { intros a r _ H. rewrite Ed in H. destruct (item_arith op a z r Ha H) as (y & ? & ? & _). eauto. }
    exists (ShapeT n), (RShape lz). split; [rewrite El; destruct Sr as [-> | ->]; reflexivity|].
    split; [cbn [run var]; rewrite Vl, Ev, Hz; reflexivity|].
    split; [exact W|]. split; [exact F|]. cbn. split; [lia|]. left. unfold out_dtype.
    split; [destruct op; try discriminate Ha; exact Ed|]. rewrite <- Hm, Hlz. reflexivity.
  Qed.
  Lemma scalar_shape_done n : rty = ShapeT n -> scalar_ty lty -> done d op lty rty vl vr t (CEach (upd_rev op) R L).
  Proof.
    intros El Sr. destruct (scalar_value _ _ _ _ Sr Hl) as (Ed & z & Et & Ev).
    pose proof Hr as Hl'. rewrite El, Ed in Hl'. destruct (shape_value _ _ _ Hl') as (la & Vl & Ln & Tl).
    destruct (result_facts d op lty vl tl tr t Hl Ht) as (W & F & _).
    pose proof Ht as Hm. unfold onnx_binary in Hm. rewrite Et, broadcast2_scalar_l in Hm by (apply Hr).
    rewrite Tl in Hm. unfold tmapo in Hm. cbn [tdata tshape] in Hm.
    destruct (mapo _ (map EI la)) as [l|] eqn:Em; [|discriminate Hm]. cbn in Hm. injection Hm as Hm.
    destruct (each_items (upd_rev op) z (fun b => onnx_elt d op (EI z) b) la l) with (2 := Em) as (lz & Hz & Hlz & Ll).
    { intros a r _ H. rewrite Ed in H. destruct (item_arith op z a r Ha H) as (y & ? & _ & ?). eauto. }
    exists (ShapeT n), (RShape lz). split; [rewrite El; destruct Sr as [-> | ->]; reflexivity|].
    split; [cbn [run var]; rewrite Vl, Ev, Hz; reflexivity|].
    split; [exact W|]. split; [exact F|]. cbn. split; [lia|]. left. unfold out_dtype.
    split; [destruct op; try discriminate Ha; exact Ed|]. rewrite <- Hm, Hlz. reflexivity.
  Qed.
End Arrays.

Section ShapeTensor.
  Variables (d : dtype) (op : bop) (lty rty : argty) (vl vr : rv) (tl tr t : tensor elt).
  Hypothesis Hl : stands_for d lty vl tl.
  Hypothesis Hr : stands_for d rty vr tr.
  Hypothesis Ht : onnx_binary d op tl tr = Some t.

  Lemma shape_tensor_done n y : lty = ShapeT n -> rty = TensorT y -> tt_dtype y = I64 -> tt_rank y = 1%N ->
    done d op lty rty vl vr t (CBinary (meth op) (DFromShape L) (DVar R)).
  Proof.
    intros El Er Hd Hrank. pose proof Hl as Hl'. pose proof Hr as Hr'. rewrite Er in Hr'.
    destruct (tensor_value _ _ _ _ Hr') as (Vr & Hd' & Lr).
    assert (Ed : d = I64) by congruence. rewrite El, Ed in Hl'. destruct (shape_value _ _ _ Hl') as (la & Vl & Ln & Tl).
    destruct (result_facts d op lty vl tl tr t Hl Ht) as (W & F & Lt).
    apply (done_tensor d op lty rty vl vr tl tr t Hl Hr Ht);
      [rewrite El, Er; reflexivity|rewrite El, Er; cbn [rank_of]; rewrite Lt, Tl; cbn [tshape length]; lia|].
    cbn [run deval var]. rewrite Vl, Vr. cbn [tshape length]. rewrite Ln, <- Tl.
    replace (Nat.eqb 1 (length (tshape tr))) with true by (symmetry; apply Nat.eqb_eq; lia).
    rewrite (broadcast2_mono _ (burn_elt d (meth op)) tl tr t (fun a b r _ _ => onnx_burn d op a b r) Ht). reflexivity.
  Qed.
  Lemma tensor_shape_done n y : rty = ShapeT n -> lty = TensorT y -> tt_dtype y = I64 -> tt_rank y = 1%N ->
    done d op lty rty vl vr t (CBinary (meth op) (DVar L) (DFromShape R)).
  Proof.
    intros El Er Hd Hrank. pose proof Hr as Hl'. pose proof Hl as Hr'. rewrite Er in Hr'.
    destruct (tensor_value _ _ _ _ Hr') as (Vr & Hd' & Lr).
    assert (Ed : d = I64) by congruence. rewrite El, Ed in Hl'. destruct (shape_value _ _ _ Hl') as (la & Vl & Ln & Tl).
    destruct (result_facts d op lty vl tl tr t Hl Ht) as (W & F & Lt).
    apply (done_tensor d op lty rty vl vr tl tr t Hl Hr Ht);
      [rewrite El, Er; reflexivity|rewrite El, Er; cbn [rank_of]; rewrite Lt, Tl; cbn [tshape length]; lia|].
    cbn [run deval var]. rewrite Vl, Vr. cbn [tshape length]. rewrite Ln, <- Tl.
    replace (Nat.eqb (length (tshape tl)) 1) with true by (symmetry; apply Nat.eqb_eq; lia).
    rewrite (broadcast2_mono _ (burn_elt d (meth op)) tl tr t (fun a b r _ _ => onnx_burn d op a b r) Ht). reflexivity.
  Qed.
End ShapeTensor.

(** ** Single forms of code on a device value and a native scalar *)
Lemma run_scalar_l d op x y r : tmapo (fun a => onnx_elt d op a x) y = Some r ->
  run d (RTensor y) (RNative x) (CScalar (meth op) L R) = Some (RTensor r).
Proof.
  intros H. cbn [run var]. rewrite (tmapo_mono (fun a => onnx_elt d op a x) (fun a => burn_elt d (meth op) a x) y r); [reflexivity| |exact H].
  intros a b _. apply onnx_burn.
Qed.
Lemma run_scalar_r d op x y r : reversible op = true -> tmapo (fun b => onnx_elt d op x b) y = Some r ->
  run d (RNative x) (RTensor y) (CScalar (meth_rev op) R L) = Some (RTensor r).
Proof.
  intros Hr H. cbn [run var]. rewrite (tmapo_mono (fun b => onnx_elt d op x b) (fun b => burn_elt d (meth_rev op) b x) y r); [reflexivity| |exact H].
  intros a b _. apply onnx_burn_rev. exact Hr.
Qed.
Lemma run_infix d op x y r : op = OAdd \/ op = OSub \/ op = OMul -> tmapo (fun b => onnx_elt d op x b) y = Some r ->
  run d (RNative x) (RTensor y) (CInfixTensor (infix_of op)) = Some (RTensor r).
Proof.
  intros Hr H. cbn [run]. rewrite (tmapo_mono (fun b => onnx_elt d op x b) (fun b => infix_tensor_elt d (infix_of op) x b) y r); [reflexivity| |exact H].
  intros a b _. apply onnx_infix_tensor. exact Hr.
Qed.
Lemma run_full_like d op x y r : twf y -> tmapo (fun b => onnx_elt d op x b) y = Some r ->
  run d (RNative x) (RTensor y) (CBinary (meth op) (DFullLike R L) (DVar R)) = Some (RTensor r).
Proof.
  intros W H. cbn [run deval var tshape]. rewrite Nat.eqb_refl, broadcast2_const, broadcast2_scalar_l by exact W.
  rewrite (tmapo_mono (fun b => onnx_elt d op x b) (fun b => burn_elt d (meth op) x b) y r); [reflexivity| |exact H].
  intros a b _. apply onnx_burn.
Qed.
Lemma run_from_native d op x y r n : twf y -> N.of_nat (length (tshape y)) = n -> n <> 0%N ->
  tmapo (fun b => onnx_elt d op x b) y = Some r ->
  run d (RNative x) (RTensor y)
    (CBinary (meth op) (if N.ltb 1 n then DUnsqueeze (N.to_nat (n - 1)) (DFromNative L) else DFromNative L) (DVar R))
  = Some (RTensor r).
Proof.
  intros W Ln Nz H.
  assert (E : deval (RNative x) (RTensor y) (if N.ltb 1 n then DUnsqueeze (N.to_nat (n - 1)) (DFromNative L) else DFromNative L)
              = Some (unsqueeze (N.to_nat n) (mkT [] [x]))).
  { destruct (N.ltb_spec 1 n).
    - cbn [deval var option_map]. change (mkT [1%N] [x]) with (unsqueeze 1 (mkT [] [x])). rewrite unsqueeze_unsqueeze.
      do 2 f_equal. lia.
    - replace n with 1%N by lia. reflexivity. }
  cbn [run]. rewrite E. cbn [deval var].
  replace (Nat.eqb _ _) with true
    by (symmetry; apply Nat.eqb_eq; cbn [unsqueeze tshape]; rewrite app_length, repeat_length; cbn [length]; lia).
  rewrite broadcast2_unsqueeze_l by (cbn [tshape length]; lia). rewrite broadcast2_scalar_l by exact W.
  rewrite (tmapo_mono (fun b => onnx_elt d op x b) (fun b => burn_elt d (meth op) x b) y r); [reflexivity| |exact H].
  intros a b _. apply onnx_burn.
Qed.

Definition then_of (op : bop) : who -> mexp := match op with OAnd => MKeep | OOr => MOnes | _ => MBoolNot end.
Definition else_of (op : bop) : who -> mexp := match op with OAnd => MZeros | _ => MKeep end.
Lemma map_id_ext {A} (g : A -> A) l : (forall x, In x l -> g x = x) -> map g l = l.
Proof. intros H. induction l as [|a l IH]; cbn; [reflexivity|]. rewrite H, IH; auto; [intros; apply H; right; assumption|left; reflexivity]. Qed.
Lemma logic_case d op x y r : is_logic op = true -> in_dtype d x -> d = BoolT -> tmapo (fun b => onnx_elt d op x b) y = Some r ->
  exists c, x = EB c /\
    forall w vl vr, var vl vr w = RTensor y -> meval vl vr ((if c then then_of op else else_of op) w) = Some r.
Proof.
  intros Hop Hx -> H. destruct x as [z|c|f];
    [destruct Hx as (? & ? & Hx & _); discriminate Hx| |destruct Hx as (? & Hx); discriminate Hx].
  exists c. split; [reflexivity|]. intros w vl vr Hv.
  destruct y as [s l]. 
  assert (K : forall g, (forall a b, onnx_elt BoolT op (EB c) a = Some b -> b = g a) -> r = mkT s (map g l)).
  { intros g Hg. apply (tmapo_map (fun b => onnx_elt BoolT op (EB c) b) g (mkT s l) r); [|exact H]. intros a b _. apply Hg. }
  destruct op; try discriminate Hop; destruct c; cbn [then_of else_of meval]; rewrite Hv; cbn [tshape tdata].
  - f_equal. rewrite (K (fun a => a)), map_id; [reflexivity|]. intros [?|c'|?] b; cbn; try discriminate. congruence.
  - f_equal. rewrite (K (fun _ => EB false)); [reflexivity|]. intros [?|c'|?] b; cbn; try discriminate. congruence.
  - f_equal. rewrite (K (fun _ => EB true)); [reflexivity|]. intros [?|c'|?] b; cbn; try discriminate. congruence.
  - f_equal. rewrite (K (fun a => a)), map_id; [reflexivity|]. intros [?|c'|?] b; cbn; try discriminate. congruence.
  - eapply tmapo_mono; [|exact H]. intros [?|c'|?] b _; cbn; try discriminate. auto.
  - f_equal. rewrite (K (fun a => a)), map_id; [reflexivity|].
    intros [?|b'|?] b; cbn; try discriminate. destruct b'; congruence.
Qed.
Lemma onnx_logic_comm d op x y : is_logic op = true -> onnx_elt d op x y = onnx_elt d op y x.
Proof.
  destruct op; try discriminate; intros _; destruct x as [a|a|a], y as [b|b|b]; try reflexivity; unfold onnx_elt; cbn.
  all: try (destruct (float_format d) as [[? ?]|]; reflexivity).
  all: destruct a, b; reflexivity.
Qed.
Lemma tmapo_ext {A B} (f g : A -> option B) t : (forall x, f x = g x) -> tmapo f t = tmapo g t.
Proof. intros H. unfold tmapo. f_equal. apply mapo_ext. auto. Qed.
Lemma run_if_l d op x y r : is_logic op = true -> in_dtype d x -> d = BoolT -> tmapo (fun b => onnx_elt d op x b) y = Some r ->
  run d (RNative x) (RTensor y) (CIf L (then_of op R) (else_of op R)) = Some (RTensor r).
Proof.
  intros Hop Hx Hd H. destruct (logic_case d op x y r Hop Hx Hd H) as (c & -> & K). cbn [run var].
  specialize (K R (RNative (EB c)) (RTensor y) eq_refl). destruct c; rewrite K; reflexivity.
Qed.
Lemma run_if_r d op x y r : is_logic op = true -> in_dtype d x -> d = BoolT -> tmapo (fun a => onnx_elt d op a x) y = Some r ->
  run d (RTensor y) (RNative x) (CIf R (then_of op L) (else_of op L)) = Some (RTensor r).
Proof.
  intros Hop Hx Hd H. rewrite (tmapo_ext (fun a => onnx_elt d op a x) (fun b => onnx_elt d op x b)) in H by (intros; apply onnx_logic_comm; exact Hop).
  destruct (logic_case d op x y r Hop Hx Hd H) as (c & -> & K). cbn [run var].
  specialize (K L (RTensor y) (RNative (EB c)) eq_refl). destruct c; rewrite K; reflexivity.
Qed.

(** ** All combinations *)
Lemma gen_device op lty rty : on_device lty = true -> on_device rty = true -> combination op lty rty ->
  generate op lty rty = Some (device_pair (meth op) lty rty).
Proof.
  intros Dl Dr C.
  destruct (is_shift op) eqn:S.
  - assert (E : rank_of lty = rank_of rty).
    { destruct lty, rty; try discriminate; cbn in *; try reflexivity; try (apply C; exact S); symmetry; apply C; exact S. }
    assert (K : device_pair (meth op) lty rty = CBinary (meth op) (DVar L) (DVar R))
      by (unfold device_pair; rewrite E, N.eqb_refl; reflexivity).
    rewrite K. destruct op; try discriminate S; destruct lty, rty; try discriminate; reflexivity.
  - destruct op; try discriminate S; destruct lty, rty; try discriminate; reflexivity.
Qed.

Lemma native_in d d' x t v : v = RNative x -> stands_for d (ScalarNative d') v t -> in_dtype d x.
Proof.
  intros -> (_ & F & H). destruct H as [_ ->]. inversion F. assumption.
Qed.

Lemma all_done d op lty rty vl vr tl tr t :
  stands_for d lty vl tl -> stands_for d rty vr tr -> combination op lty rty -> onnx_binary d op tl tr = Some t ->
  exists c, generate op lty rty = Some c /\ done d op lty rty vl vr t c.
Proof.
  intros Hl Hr C Ht.
  destruct (on_device lty) eqn:Dl, (on_device rty) eqn:Dr.
  - exists (device_pair (meth op) lty rty). split; [apply gen_device; assumption|].
    eapply pair_run; eauto. intros x y r. apply onnx_burn.
  - destruct rty as [d'|d'|m|y]; try discriminate Dr.
    + (* device, native *)
      assert (C' : is_extremum op = false /\ (is_logic op = true -> d' = BoolT)) by (destruct lty; try discriminate Dl; exact C).
      destruct C' as [Ce Cl]. pose proof (stands_elem _ _ _ _ Hr) as Ed. cbn in Ed.
      destruct (is_logic op) eqn:Lo.
      * exists (CIf R (then_of op L) (else_of op L)).
        split; [destruct op; try discriminate Lo; destruct lty; try discriminate Dl; reflexivity|].
        eapply device_native_done; eauto. intros x y Vl Vr W r H.
        pose proof (native_in _ _ _ _ _ Vr Hr) as Hx. rewrite Vl, Vr. apply run_if_r; auto. rewrite <- Ed. auto.
      * exists (CScalar (meth op) L R).
        split; [destruct op; try discriminate Lo; try discriminate Ce; destruct lty; try discriminate Dl; reflexivity|].
        eapply device_native_done; eauto. intros x y Vl Vr W r H. rewrite Vl, Vr. apply run_scalar_l. exact H.
    + destruct lty as [d'|d'|n|y]; try discriminate Dl.
      * destruct C as [-> Ca]. exists (CEach (upd_rev op) R L). split; [destruct op; try discriminate Ca; reflexivity|].
        eapply scalar_shape_done; eauto. right. reflexivity.
      * destruct C as (Cd & Cr & Ca). exists (CBinary (meth op) (DVar L) (DFromShape R)).
        split; [destruct op; try discriminate Ca; reflexivity|]. eapply tensor_shape_done; eauto.
  - destruct lty as [d'|d'|m|y]; try discriminate Dl.
    + (* native, device *)
      assert (C' : is_extremum op = false /\ (is_logic op = true -> d' = BoolT) /\ op <> ODiv) by (destruct rty; try discriminate Dr; exact C).
      destruct C' as (Ce & Cl & Nd). pose proof (stands_elem _ _ _ _ Hl) as Ed. cbn in Ed.
      destruct (is_logic op) eqn:Lo.
      { exists (CIf L (then_of op R) (else_of op R)).
        split; [destruct op; try discriminate Lo; destruct rty; try discriminate Dr; reflexivity|].
        eapply native_device_done; eauto. intros x y Vl Vr W r H.
        pose proof (native_in _ _ _ _ _ Vr Hl) as Hx. rewrite Vl, Vr. apply run_if_l; auto. rewrite <- Ed. auto. }
      destruct (reversible op) eqn:Rv.
      { exists (CScalar (meth_rev op) R L).
        split; [destruct op; try discriminate Rv; destruct rty; try discriminate Dr; reflexivity|].
        eapply native_device_done; eauto. intros x y Vl Vr W r H. rewrite Vl, Vr. apply run_scalar_r; assumption. }
      destruct (is_arith op) eqn:Ar.
      { exists (CInfixTensor (infix_of op)).
        split; [destruct op; try discriminate Ar; try congruence; destruct rty; try discriminate Dr; reflexivity|].
        eapply native_device_done; eauto. intros x y Vl Vr W r H. rewrite Vl, Vr. apply run_infix; [|assumption].
        destruct op; try discriminate Ar; auto. congruence. }
      destruct (is_shift op) eqn:Sh.
      { exists (CBinary (meth op) (DFullLike R L) (DVar R)).
        split; [destruct op; try discriminate Sh; destruct rty; try discriminate Dr; reflexivity|].
        eapply native_device_done; eauto. intros x y Vl Vr W r H. rewrite Vl, Vr. apply run_full_like; assumption. }
      assert (Eo : op = OMod) by (destruct op; try discriminate; reflexivity). rewrite Eo in *.
      eexists. split; [cbn [generate]; unfold gen_mod; destruct rty; try discriminate Dr; reflexivity|].
      destruct (device_value _ _ _ _ Dr Hr) as (Er & Rr & _).
      eapply native_device_done; eauto. intros x y Vl Vr W r H. rewrite Vl, Vr.
      apply (run_from_native d OMod x y r (rank_of rty)); auto.
      * rewrite Er in Vl. injection Vl as <-. symmetry. exact Rr.
      * pose proof (stands_elem _ _ _ _ Hr) as Q. destruct rty; try discriminate Dr; cbn in *; [discriminate|apply Q].
    + destruct rty as [d'|d'|n|y]; try discriminate Dr.
      * destruct C as [-> Ca]. exists (CEach (upd op) L R). split; [destruct op; try discriminate Ca; reflexivity|].
        eapply shape_scalar_done; eauto. right. reflexivity.
      * destruct C as (Cd & Cr & Ca). exists (CBinary (meth op) (DFromShape L) (DVar R)).
        split; [destruct op; try discriminate Ca; reflexivity|]. eapply shape_tensor_done; eauto.
  - destruct lty as [d1|d1|n|y]; try discriminate Dl; destruct rty as [d2|d2|m|y']; try discriminate Dr.
    + destruct C as [Ce Nm]. exists (CNative (infix_of op)).
      split; [destruct op; try discriminate Ce; try congruence; reflexivity|].
      eapply native_native_done; eauto. intros x y r Vl Vr H. rewrite Vl, Vr. cbn [run].
      rewrite (onnx_native d op x y r); auto; intros ->; discriminate Ce.
    + destruct C as [-> Ca]. exists (CEach (upd_rev op) R L). split; [destruct op; try discriminate Ca; reflexivity|].
      eapply scalar_shape_done; eauto. left. reflexivity.
    + destruct C as [-> Ca]. exists (CEach (upd op) L R). split; [destruct op; try discriminate Ca; reflexivity|].
      eapply shape_scalar_done; eauto. left. reflexivity.
    + destruct C as [<- Ca]. exists (CZip (upd op)). split; [destruct op; try discriminate Ca; reflexivity|].
      eapply shape_shape_done; eauto.
Qed.
