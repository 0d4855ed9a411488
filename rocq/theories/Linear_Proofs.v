(** Lemmas about linear layers and about the names imported nodes read. *)
From Verif Require Import IR_Model IR_Spec Tensor_Spec Tensor_Proofs Shapes_Spec Names_Model
  Import_Model Import_Spec Import_Proofs Linear_Model Linear_Spec.
From Coq Require Import Lia ZifyBool ZifyNat ZifyN.
Local Open Scope N_scope.

Lemma eqs_true a b : eqs a b = true -> a = b.
Proof. unfold eqs. destruct (list_eq_dec N.eq_dec a b); [auto|discriminate]. Qed.
Lemma eqs_refl a : eqs a a = true.
Proof. unfold eqs. destruct (list_eq_dec N.eq_dec a a); [auto|contradiction]. Qed.

Lemma valid_snoc s n idx : valid_idx (s ++ [n]) idx -> exists i o, idx = i ++ [o] /\ valid_idx s i /\ o < n.
Proof.
  intros H. unfold valid_idx in H. apply Forall2_app_inv_r in H. destruct H as (i & o & Hi & Ho & ->).
  inversion Ho as [|x y l l' Hx Hl]; subst. inversion Hl; subst. exists i, x. auto.
Qed.

Lemma bproj_last s n idx : valid_idx (s ++ [n]) idx -> bproj [n] idx = [last idx 0].
Proof.
  intros H. destruct (valid_snoc _ _ _ H) as (i & o & -> & _ & Ho). unfold bproj.
  rewrite app_length. cbn [length]. replace (length i + 1 - 1)%nat with (length i + 0)%nat by lia.
  rewrite skipn_app, skipn_all2 by lia. replace (length i + 0 - length i)%nat with 0%nat by lia. cbn.
  rewrite last_last. destruct (N.eqb_spec n 1); [f_equal; lia|reflexivity].
Qed.

Lemma brev_nil_r a : brev a [] = Some a.
Proof. destruct a; reflexivity. Qed.

Lemma bshape_bias s n : bshape (s ++ [n]) [n] = Some (s ++ [n]).
Proof.
  unfold bshape. rewrite rev_app_distr. cbn. unfold bdim. rewrite N.eqb_refl, brev_nil_r. cbn.
  rewrite rev_involutive. reflexivity.
Qed.
Lemma bshape_scalar s : bshape s [] = Some s.
Proof. unfold bshape. cbn. rewrite brev_nil_r. cbn. rewrite rev_involutive. reflexivity. Qed.
Lemma bproj_scalar idx : bproj [] idx = [].
Proof. reflexivity. Qed.

Lemma brev_comm a : forall b, brev a b = brev b a.
Proof.
  induction a as [|x a IH]; intros [|y b]; cbn; try reflexivity. rewrite IH.
  assert (E : bdim x y = bdim y x).
  { unfold bdim. destruct (N.eqb_spec x y), (N.eqb_spec y x), (N.eqb_spec x 1), (N.eqb_spec y 1); subst; congruence. }
  rewrite E. reflexivity.
Qed.
Lemma bshape_comm a b : bshape a b = bshape b a.
Proof. unfold bshape. rewrite brev_comm. reflexivity. Qed.

Lemma elementwise_comm {A} (op : A -> A -> A) x y : (forall a b, op a b = op b a) ->
  elementwise op x y = elementwise op y x.
Proof.
  intros H. unfold elementwise. rewrite bshape_comm. destruct (bshape _ _) as [s|]; [|reflexivity].
  apply tab_ext. intros idx _. destruct (get x _), (get y _); cbn; try reflexivity. rewrite H. reflexivity.
Qed.

(** What a loaded bias has to do with the bias of the ONNX node. *)
Definition bias_ok {T} (n : N) (b c : tensor T) : Prop :=
  tshape b = [n] /\ (b = c \/ tshape c = [] /\ b = mkT [1] (tdata c)).

Lemma bias_get {T} n (b c : tensor T) s idx : bias_ok n b c -> valid_idx (s ++ [n]) idx ->
  get c (bproj (tshape c) idx) = get b [last idx 0].
Proof.
  intros [Hb Hc] Hv. destruct Hc as [->|[Hs ->]].
  - rewrite Hb. rewrite (bproj_last s n idx Hv). reflexivity.
  - rewrite Hs, bproj_scalar. unfold get. rewrite Hs. cbn in *. injection Hb as <-.
    destruct (valid_snoc _ _ _ Hv) as (i & o & -> & _ & Ho). rewrite last_last.
    assert (o = 0) by lia. subst. reflexivity.
Qed.
Lemma bias_shape {T} n (b c : tensor T) s : bias_ok n b c -> bshape (s ++ [n]) (tshape c) = Some (s ++ [n]).
Proof.
  intros [Hb [->|[Hs _]]]; [rewrite Hb; apply bshape_bias|rewrite Hs; apply bshape_scalar].
Qed.

Section Layers.
  Context {T : Type}.
  Variables (add mul : T -> T -> T) (dot : list T -> list T -> T) (of_f32 : N -> T).
  Variable value : arg -> option (tensor T).

  (** The result of a layer without bias is a product. *)
  Lemma layer_matmul W x : layer_forward add dot (mkL false W None) x = onnx_matmul dot x W.
  Proof.
    unfold layer_forward, onnx_matmul. cbn [l_weight l_col l_bias]. reflexivity.
  Qed.

  Lemma layer_matmul_bias W b c x m : onnx_matmul dot x W = Some m ->
    (forall w0 w1, tshape W = [w0; w1] -> bias_ok w1 b c) ->
    layer_forward add dot (mkL false W (Some b)) x = elementwise add m c.
  Proof.
    unfold layer_forward, onnx_matmul. cbn [l_weight l_col l_bias].
    destruct (rev (tshape x)) as [|k s]; [discriminate|].
    destruct (tshape W) as [|w0 [|w1 [|]]]; try discriminate.
    destruct (k =? w0); [|discriminate]. intros Hm Hb. specialize (Hb _ _ eq_refl).
    unfold elementwise. destruct (tab_wf _ _ _ Hm) as [_ Hs]. rewrite Hs.
    rewrite (bias_shape _ _ _ _ Hb). apply tab_ext. intros idx Hi.
    rewrite (bproj_self _ _ Hi), (get_tab _ _ _ _ Hm Hi), (bias_get _ _ _ _ _ Hb Hi). reflexivity.
  Qed.

  (** The product need not be defined by hypothesis: the layer fails when it does. *)
  Lemma layer_matmul_none W b x : onnx_matmul dot x W = None ->
    layer_forward add dot (mkL false W b) x = None.
  Proof.
    unfold layer_forward, onnx_matmul. cbn [l_weight l_col l_bias].
    destruct (rev (tshape x)) as [|k s]; [reflexivity|].
    destruct (tshape W) as [|w0 [|w1 [|]]]; try reflexivity.
    destruct (k =? w0); [|reflexivity].
    unfold tab. intros H.
    destruct (mapo _ (indices (rev s ++ [w1]))) as [l|] eqn:E in H; [discriminate|]. clear H.
    destruct b as [b|]; [|rewrite E; reflexivity].
    match goal with |- option_map _ (mapo ?f ?l) = None => destruct (mapo f l) as [r|] eqn:E2; [exfalso|reflexivity] end.
    revert r E E2. generalize (indices (rev s ++ [w1])). induction l as [|i l IH]; cbn; intros r E E2; [discriminate|].
    destruct (lift2 dot _ _) as [y|]; [|cbn in E2; discriminate].
    cbn in E2. destruct (get b [last i 0]); [|discriminate]. cbn in E2.
    destruct (mapo _ l) as [l'|] eqn:E3 in E; [discriminate|].
    match type of E2 with match mapo ?f l with _ => _ end = _ => destruct (mapo f l) as [l2|] eqn:E4; [|discriminate] end.
    eapply IH; eauto.
  Qed.

  Lemma layer_gemm W b c A : (forall x, mul (of_f32 f32_one) x = x) -> length (tshape A) = 2%nat ->
    (forall w0 w1, tshape W = [w0; w1] -> match b, c with
       | None, None => True
       | Some b, Some c => bias_ok w0 b c
       | _, _ => False
       end) ->
    length (tshape W) = 2%nat ->
    layer_forward add dot (mkL true W b) A = onnx_gemm add mul dot of_f32 f32_one f32_one false true A W c.
  Proof.
    intros Hone HA Hb HW. unfold layer_forward, onnx_gemm. cbn [l_weight l_col l_bias].
    destruct (tshape A) as [|a0 [|a1 [|]]]; try discriminate.
    destruct (tshape W) as [|w0 [|w1 [|]]]; try discriminate. specialize (Hb _ _ eq_refl).
    cbn [rev app]. destruct (a1 =? w1); [|reflexivity].
    assert (Hid : forall (o : option T), option_map (mul (of_f32 f32_one)) o = o).
    { intros [v|]; cbn; [rewrite Hone|]; reflexivity. }
    assert (Hidx : forall idx, valid_idx [a0; w0] idx -> removelast idx = [nth 0 idx 0] /\ last idx 0 = nth 1 idx 0).
    { intros idx Hi. destruct (valid_snoc [a0] w0 idx Hi) as (i & o & -> & Hi' & _).
      inversion Hi' as [|x y l l' _ Hl]; subst. inversion Hl; subst. split; reflexivity. }
    destruct b as [b|], c as [c|]; try contradiction.
    - assert (E : bshape [a0; w0] (tshape c) = Some [a0; w0]) by exact (bias_shape w0 b c [a0] Hb).
      rewrite E, !N.eqb_refl. cbn [andb]. apply tab_ext. intros idx Hi.
      rewrite !Hid. rewrite (bias_get w0 b c [a0] idx Hb Hi).
      destruct (Hidx idx Hi) as [-> ->]. reflexivity.
    - apply tab_ext. intros idx Hi. rewrite Hid. destruct (Hidx idx Hi) as [-> ->]. reflexivity.
  Qed.

  (** What loading a layer says about its data. *)
  Lemma snapshot_weight w s W : static_shape_known (aty w) = Some s -> snapshot value w = Some W -> value w = Some W.
  Proof.
    unfold static_shape_known, snapshot. destruct (aty w); try discriminate. auto.
  Qed.
  Lemma snapshot_bias b n B : snapshot value b = Some B -> tshape B = [n] ->
    exists C, value b = Some C /\ bias_ok n B C.
  Proof.
    unfold snapshot. intros H Hs. destruct (aty b); try discriminate.
    - destruct (value b) as [v|]; [|discriminate]. exists v. split; [reflexivity|]. injection H as H.
      destruct (tshape v) as [|d0 r] eqn:E; subst B; (split; [exact Hs|]); [right|left]; auto.
    - destruct (value b) as [v|]; [|discriminate]. exists v. split; [reflexivity|]. injection H as H.
      destruct (tshape v) as [|d0 r] eqn:E; subst B; (split; [exact Hs|]); [right|left]; auto.
    - exists B. split; [exact H|]. split; auto.
  Qed.

  Lemma layer_data n L : linear_layer value n = Some L ->
    exists x w rest W s0 s1, ninputs n = x :: w :: rest /\ value w = Some W /\ tshape W = [s0; s1] /\
      l_col L = transpose_weight n /\ l_weight L = W /\
      match rest, l_bias L with
      | [], None => True
      | b :: _, Some B => exists C, value b = Some C /\ bias_ok (if transpose_weight n then s0 else s1) B C
      | _, _ => False
      end.
  Proof.
    unfold linear_layer. destruct (ninputs n) as [|x [|w rest]]; try discriminate.
    destruct (static_shape_known (aty w)) as [[|s0 [|s1 sr]]|] eqn:Es; try discriminate.
    destruct (snapshot value w) as [W|] eqn:Ew; [|discriminate].
    destruct (eqs (tshape W) [s0; s1]) eqn:Eq; [|discriminate]. apply eqs_true in Eq.
    pose proof (snapshot_weight _ _ _ Es Ew) as Hv.
    destruct rest as [|b rest].
    - intros H. injection H as <-. exists x, w, [], W, s0, s1. cbn. auto 10.
    - destruct (snapshot value b) as [B|] eqn:Eb; [|discriminate].
      destruct (eqs (tshape B) _) eqn:EB; [|discriminate]. apply eqs_true in EB.
      intros H. injection H as <-. exists x, w, (b :: rest), W, s0, s1. cbn.
      pose proof (snapshot_bias _ _ _ Eb EB). auto 10.
  Qed.
End Layers.

(** * The conversion of Gemm *)
Lemma sget_app_none {A} (l r : smap A) k : sget l k = None -> sget (l ++ r) k = sget r k.
Proof.
  induction l as [|[k' v] l IH]; cbn; intros H; [reflexivity|]. destruct (String.eqb k' k); [discriminate|auto].
Qed.
Lemma sget_sremove {A} (l : smap A) k : sget (sremove l k) k = None.
Proof.
  induction l as [|[k' v] l IH]; cbn; [reflexivity|]. destruct (String.eqb k' k) eqn:E; cbn; [exact IH|].
  rewrite E. exact IH.
Qed.

Lemma gemm_conv n m : convert_gemm_to_linear n = Some m ->
  m = n \/
  ntype m = "Linear"%string /\ ninputs m = ninputs n /\ noutputs m = noutputs n /\ nname m = nname n /\
  transpose_weight m = true /\
  is_int (get_attr n "transA") 1 = false /\ is_one (get_attr n "alpha") = true /\
  is_one (get_attr n "beta") = true /\ is_int (get_attr n "transB") 1 = true.
Proof.
  unfold convert_gemm_to_linear. destruct (noutputs n) as [|o [|]] eqn:Eo; try discriminate.
  destruct (is_int (get_attr n "transA") 1) eqn:E1; [intros H; injection H as <-; auto|].
  destruct (is_one (get_attr n "alpha")) eqn:E2; cbn [andb]; [|intros H; injection H as <-; auto].
  destruct (is_one (get_attr n "beta")) eqn:E3; cbn [andb]; [|intros H; injection H as <-; auto].
  destruct (is_int (get_attr n "transB") 1) eqn:E4; [|intros H; injection H as <-; auto].
  intros H; injection H as <-. right. cbn [ntype ninputs noutputs nname].
  repeat (split; [reflexivity|]). repeat split; auto.
  unfold transpose_weight, get_attr. cbn [nattrs].
  rewrite sget_app_none by apply sget_sremove. reflexivity.
Qed.

Lemma is_one_float l k : is_one (sget l k) = true -> float_attr l k = f32_one.
Proof.
  unfold is_one, float_attr. destruct (sget l k) as [[]|]; try discriminate. intros H. apply N.eqb_eq in H. exact H.
Qed.

Section Gemm.
  Context {T : Type}.
  Variables (add mul : T -> T -> T) (dot : list T -> list T -> T) (of_f32 : N -> T).
  Variable value : arg -> option (tensor T).

  Lemma gemm_equal n m L : (forall x, mul (of_f32 f32_one) x = x) ->
    convert_gemm_to_linear n = Some m -> ntype n <> "Linear"%string -> ntype m = "Linear"%string ->
    (forall z, sget (nattrs n) "transA" = Some (AInt z) -> z = 0%Z \/ z = 1%Z) ->
    linear_layer value m = Some L ->
    exists x w rest W, ninputs n = x :: w :: rest /\ value w = Some W /\
      forall A, length (tshape A) = 2%nat ->
        layer_forward add dot L A =
        gemm_of add mul dot of_f32 (nattrs n) A W (match rest with b :: _ => value b | [] => None end).
  Proof.
    intros Hone Hc Hn Hm Hta HL. destruct (gemm_conv _ _ Hc) as [->|(_ & Hi & _ & _ & Htw & Ea & Eal & Ebe & Etb)]; [contradiction|].
    destruct (layer_data value m L HL) as (x & w & rest & W & s0 & s1 & Hin & Hv & Hs & Hcol & HW & Hrest).
    rewrite Hi in Hin. exists x, w, rest, W. split; [exact Hin|]. split; [exact Hv|]. intros A HA.
    unfold gemm_of. unfold get_attr in *. rewrite (is_one_float _ _ Eal), (is_one_float _ _ Ebe).
    assert (F1 : flag_attr (nattrs n) "transA" = false).
    { unfold flag_attr. unfold is_int in Ea. destruct (sget (nattrs n) "transA") as [[]|]; try reflexivity.
      destruct (Hta z eq_refl) as [->| ->]; [reflexivity|discriminate]. }
    assert (F2 : flag_attr (nattrs n) "transB" = true).
    { unfold flag_attr. unfold is_int in Etb. destruct (sget (nattrs n) "transB") as [[]|]; try discriminate.
      apply Z.eqb_eq in Etb. subst. reflexivity. }
    rewrite F1, F2. destruct L as [col W' b]. cbn in Hcol, HW, Hrest. subst W' col. rewrite Htw in *.
    apply layer_gemm; auto.
    - intros w0 w1 E. rewrite Hs in E. injection E as <- <-.
      destruct rest as [|b0 rest], b as [b|]; try contradiction; auto.
      destruct Hrest as (C & -> & HB). exact HB.
    - rewrite Hs. reflexivity.
  Qed.

  (** When the layer loads. *)
  Lemma layer_loads n x w rest W d s0 s1 : ninputs n = x :: w :: rest ->
    aty w = TensorT (mkTT d 2 (Some [Some s0; Some s1])) -> value w = Some W -> tshape W = [s0; s1] ->
    match rest with
    | [] => True
    | b :: _ => exists B t, aty b = TensorT t /\ value b = Some B /\ tshape B = [if transpose_weight n then s0 else s1]
    end -> exists L, linear_layer value n = Some L.
  Proof.
    intros Hi Ht Hv Hs Hb. unfold linear_layer, snapshot. rewrite Hi, Ht. cbn. rewrite Hv, Hs, eqs_refl.
    destruct rest as [|b rest]; [eexists; reflexivity|]. destruct Hb as (B & t & -> & -> & ->).
    rewrite eqs_refl. eexists; reflexivity.
  Qed.
End Gemm.

(** * The conversion of MatMul *)
Lemma matmul_conv s n rest m eaten : convert_matmul_to_linear s n rest = Some (m, eaten) ->
  (m = n /\ eaten = false) \/
  (ntype m = "Linear"%string /\ nname m = nname n /\ nattrs m = nattrs n /\
   exists x w, ninputs n = [x; w] /\ has_value s (aname w) = true /\
     (exists t, aty w = TensorT t /\ tt_rank t = 2) /\
     ((eaten = false /\ ninputs m = [x; w] /\ noutputs m = noutputs n) \/
      (eaten = true /\ exists q rest' peek a b p pr o r c,
         rest = q :: rest' /\ convert_node_proto s q = Some peek /\ ntype peek = "Add"%string /\
         ninputs peek = [a; b] /\ noutputs n = o :: r /\ noutputs peek = p :: pr /\
         noutputs m = mkArg (aname p) (aty o) (asrc o) :: r /\
         ninputs m = [x; w; c] /\ has_value s (aname c) = true /\
         (aname a = aname o /\ c = b \/ aname b = aname o /\ c = a)))).
Proof.
  unfold convert_matmul_to_linear. destruct (ninputs n) as [|x [|w [|]]] eqn:Ei; try discriminate.
  destruct (has_value s (aname w)) eqn:Ew; cbn [negb]; [|intros H; injection H as <- <-; left; split; reflexivity].
  destruct (aty w) as [d|d|k|t] eqn:Et; try (intros H; injection H as <- <-; left; split; reflexivity).
  destruct (N.eqb_spec (tt_rank t) 2) as [Er|Er]; cbn [negb]; [|intros H; injection H as <- <-; left; split; reflexivity].
  assert (Hkeep : (set_type n "Linear", false) = (m, eaten) ->
    ntype m = "Linear"%string /\ nname m = nname n /\ nattrs m = nattrs n /\ ninputs m = [x; w] /\ noutputs m = noutputs n /\ eaten = false).
  { intros H. injection H as <- <-. cbn. auto 10. }
  assert (Hkeep2 : (set_type n "Linear", false) = (m, eaten) ->
    (m = n /\ eaten = false) \/ (ntype m = "Linear"%string /\ nname m = nname n /\ nattrs m = nattrs n /\
   exists x0 w0, [x; w] = [x0; w0] /\ has_value s (aname w0) = true /\
     (exists t0, aty w0 = TensorT t0 /\ tt_rank t0 = 2) /\
     ((eaten = false /\ ninputs m = [x0; w0] /\ noutputs m = noutputs n) \/
      (eaten = true /\ exists q rest' peek a b p pr o r c,
         rest = q :: rest' /\ convert_node_proto s q = Some peek /\ ntype peek = "Add"%string /\
         ninputs peek = [a; b] /\ noutputs n = o :: r /\ noutputs peek = p :: pr /\
         noutputs m = mkArg (aname p) (aty o) (asrc o) :: r /\
         ninputs m = [x0; w0; c] /\ has_value s (aname c) = true /\
         (aname a = aname o /\ c = b \/ aname b = aname o /\ c = a))))).
  { intros H. right. destruct (Hkeep H) as (H1 & H2 & H3 & H4 & H5 & H6). repeat (split; [assumption|]).
    exists x, w. split; [reflexivity|]. split; [exact Ew|]. split; [eauto|]. left. auto. }
  destruct rest as [|q rest']; [intros H; injection H as H1 H2; apply Hkeep2; congruence|].
  destruct (convert_node_proto s q) as [peek|] eqn:Eq; [|discriminate].
  cbn [noutputs set_type].
  destruct (noutputs n) as [|o r] eqn:Eo.
  { destruct (String.eqb (ntype peek) "Add" && (length (ninputs peek) =? 2)%nat)%bool; [discriminate|].
    intros H; injection H as H1 H2; apply Hkeep2; congruence. }
  destruct (is_add_with_bias s peek (aname o)) eqn:Eb; [|intros H; injection H as H1 H2; apply Hkeep2; congruence].
  unfold is_add_with_bias in Eb. destruct (ninputs peek) as [|a [|b [|]]] eqn:Ep; try discriminate.
  apply andb_true_iff in Eb. destruct Eb as [Hadd Eb]. apply String.eqb_eq in Hadd.
  unfold add_bias. rewrite Ep. cbn [noutputs set_type ntype nname ninputs nattrs]. rewrite Eo.
  destruct (noutputs peek) as [|p pr] eqn:Epo; [discriminate|].
  cbn. intros H. injection H as <- <-. right. cbn [ntype nname nattrs ninputs noutputs].
  repeat (split; [reflexivity|]). exists x, w. split; [reflexivity|]. split; [exact Ew|]. split; [eauto|].
  right. split; [reflexivity|].
  exists q, rest', peek, a, b, p, pr, o, r, (if String.eqb (aname a) (aname o) then b else a).
  rewrite Ei. repeat (split; [first [reflexivity|assumption]|]).
  apply orb_true_iff in Eb. destruct (String.eqb_spec (aname a) (aname o)) as [Ea|Ea].
  - split; [|left; auto]. destruct Eb as [Eb|Eb]; apply andb_true_iff in Eb; destruct Eb as [E1 E2]; [exact E2|].
    apply String.eqb_eq in E1. rewrite E1, <- Ea. exact E2.
  - destruct Eb as [Eb|Eb]; apply andb_true_iff in Eb; destruct Eb as [E1 E2]; [cbn in E1; discriminate|].
    apply String.eqb_eq in E1. split; [exact E2|]. right; auto.
Qed.

Section MatMul.
  Context {T : Type}.
  Variables (add : T -> T -> T) (dot : list T -> list T -> T).
  Variable value : arg -> option (tensor T).

  Lemma matmul_equal s n rest m eaten L : (forall x y, add x y = add y x) ->
    convert_matmul_to_linear s n rest = Some (m, eaten) -> ntype n <> "Linear"%string -> ntype m = "Linear"%string ->
    nattrs n = [] -> linear_layer value m = Some L ->
    exists x w W, ninputs n = [x; w] /\ value w = Some W /\
      if eaten then
        exists q rest' peek a b c C o,
          rest = q :: rest' /\ convert_node_proto s q = Some peek /\ ntype peek = "Add"%string /\
          ninputs peek = [a; b] /\ map aname (noutputs m) = map aname (firstn 1 (noutputs peek)) ++ map aname (tl (noutputs n)) /\
          nth_error (noutputs n) 0 = Some o /\ value c = Some C /\
          (aname a = aname o /\ c = b /\
             (forall X, layer_forward add dot L X =
                match onnx_matmul dot X W with Some M => elementwise add M C | None => None end) \/
           aname b = aname o /\ c = a /\
             (forall X, layer_forward add dot L X =
                match onnx_matmul dot X W with Some M => elementwise add C M | None => None end))
      else noutputs m = noutputs n /\ forall X, layer_forward add dot L X = onnx_matmul dot X W.
  Proof.
    intros Hcomm Hc Hn Hm Hat HL.
    destruct (matmul_conv _ _ _ _ _ Hc) as [[-> _]|(_ & _ & Ha & x & w & Hi & _ & _ & Hcase)]; [contradiction|].
    destruct (layer_data value m L HL) as (x' & w' & rs & W & s0 & s1 & Hin & Hv & Hs & Hcol & HW & Hrest).
    assert (Htw : transpose_weight m = false) by (unfold transpose_weight, get_attr; rewrite Ha, Hat; reflexivity).
    rewrite Htw in *. destruct L as [col W' b0]. cbn in Hcol, HW, Hrest. subst W' col.
    exists x, w, W. split; [exact Hi|].
    destruct Hcase as [(-> & Him & Ho)|(-> & q & rest' & peek & a & b & p & pr & o & r & c & E1 & E2 & E3 & E4 & E5 & E6 & E7 & E8 & E9 & E10)].
    - rewrite Him in Hin. injection Hin as <- <- <-. split; [exact Hv|]. split; [exact Ho|].
      destruct b0; [contradiction|]. intros X. apply layer_matmul.
    - rewrite E8 in Hin. injection Hin as <- <- <-. split; [exact Hv|].
      destruct b0 as [B|]; [|contradiction]. destruct Hrest as (C & HC & Hok).
      assert (Hgen : forall X, layer_forward add dot (mkL false W (Some B)) X =
        match onnx_matmul dot X W with Some M => elementwise add M C | None => None end).
      { intros X. destruct (onnx_matmul dot X W) as [M|] eqn:EM.
        - eapply layer_matmul_bias; [exact EM|]. intros w0 w1 E. rewrite Hs in E. injection E as <- <-. exact Hok.
        - apply layer_matmul_none. exact EM. }
      exists q, rest', peek, a, b, c, C, o. repeat (split; [first [assumption|reflexivity]|]).
      split; [rewrite E7, E6, E5; reflexivity|]. split; [rewrite E5; reflexivity|]. split; [exact HC|].
      destruct E10 as [[H1 ->]|[H1 ->]]; [left|right]; (split; [exact H1|]); (split; [reflexivity|]); [exact Hgen|].
      intros X. rewrite Hgen. destruct (onnx_matmul dot X W); [|reflexivity]. apply elementwise_comm. exact Hcomm.
  Qed.

  (** The type recorded for the output. *)
  Lemma infer_fits n L x w rest X Y ty : linear_layer value n = Some L -> ninputs n = x :: w :: rest ->
    infer_linear n (option_map tshape (value w)) = Some ty -> fits (aty x) (tshape X) ->
    layer_forward add dot L X = Some Y -> fits ty (tshape Y).
  Proof.
    intros HL Hi Hinf Hx HY.
    destruct (layer_data value n L HL) as (x' & w' & rs & W & s0 & s1 & Hin & Hv & Hs & Hcol & HW & _).
    rewrite Hi in Hin. injection Hin as <- <- <-.
    unfold infer_linear in Hinf. rewrite Hi in Hinf.
    destruct (forallb _ (nattrs n)); [|discriminate]. cbn [negb] in Hinf.
    destruct (aty x) as [d|d|k|t]; try discriminate. injection Hinf as <-. rewrite Hv. cbn [option_map]. rewrite Hs.
    unfold layer_forward in HY. destruct (rev (tshape X)) as [|k s] eqn:Er; [discriminate|].
    rewrite HW, Hs, Hcol in HY.
    assert (EX : tshape X = rev s ++ [k]) by (rewrite <- (rev_involutive (tshape X)), Er; reflexivity).
    destruct Hx as [Hr Hf]. rewrite EX in Hr, Hf.
    set (dout := if transpose_weight n then s0 else s1).
    assert (HYs : tshape Y = rev s ++ [dout]).
    { destruct (k =? _); [|discriminate]. apply (tab_wf _ _ _ HY). }
    split; cbn [tt_rank tt_shape].
    - rewrite HYs, app_length. rewrite app_length in Hr. cbn in *. lia.
    - intros l El. injection El as <-. rewrite HYs.
      set (i := if transpose_weight n then 0%nat else 1%nat).
      assert (E : nth_error [s0; s1] i = Some dout) by (unfold i, dout; destruct (transpose_weight n); reflexivity).
      rewrite E.
      assert (Hsh : fits_dims (match tt_shape t with Some s => s | None => repeat None (N.to_nat (tt_rank t)) end) (rev s ++ [k])).
      { destruct (tt_shape t) as [l|]; [apply Hf; reflexivity|].
        rewrite <- Hr, Nnat.Nat2N.id. generalize (rev s ++ [k]). induction l as [|a l IH]; cbn; constructor; auto. }
      destruct (match tt_shape t with Some s => s | None => _ end) as [|a l] eqn:El.
      { inversion Hsh as [E0|]. destruct (rev s); discriminate. }
      apply Forall2_app_inv_r in Hsh. destruct Hsh as (l1 & l2 & H1 & H2 & E2).
      inversion H2 as [|o kk l3 l4 Ho Hl]; subst. inversion Hl; subst. rewrite E2, removelast_last.
      apply Forall2_app; [exact H1|]. constructor; [right; reflexivity|constructor].
  Qed.
End MatMul.

(** * Names *)
Lemma o_inputs_ok {V} (e : string -> option V) : forall l,
  (forall x, In x l -> x = ""%string \/ exists v, e x = Some v) -> exists vs, o_inputs e l = Some vs.
Proof.
  induction l as [|x l IH]; intros H; [eexists; reflexivity|]. cbn.
  destruct IH as [vs ->]; [intros; apply H; right; assumption|].
  destruct (String.eqb_spec x ""); [eexists; reflexivity|].
  destruct (H x (or_introl eq_refl)) as [|[v ->]]; [contradiction|]. eexists; reflexivity.
Qed.

Lemma bind_defined {V} : forall xs vs (e e' : string -> option V) x, bind e xs vs = Some e' ->
  In x xs \/ e x <> None -> e' x <> None.
Proof.
  induction xs as [|y xs IH]; intros [|v vs] e e' x H Hx; cbn in H; try discriminate.
  - injection H as <-. destruct Hx as [[]|Hx]; exact Hx.
  - apply (IH _ _ _ x H). destruct Hx as [[->|Hx]|Hx].
    + right. unfold bind1. rewrite String.eqb_refl. discriminate.
    + left; exact Hx.
    + right. unfold bind1. destruct (String.eqb y x); [discriminate|exact Hx].
Qed.

Lemma o_init_defined {V} (cval : attr -> V) : forall l (e : string -> option V) x,
  In x (map fst l) \/ e x <> None -> o_init cval e l x <> None.
Proof.
  induction l as [|[y p] l IH]; cbn; intros e x H; [destruct H as [[]|H]; exact H|].
  apply IH. destruct H as [[->|H]|H].
  - right. unfold bind1. rewrite String.eqb_refl. discriminate.
  - left; exact H.
  - right. unfold bind1. destruct (String.eqb y x); [discriminate|exact H].
Qed.

Lemma closed_runs : forall l known (e : string -> option unit), closed known l ->
  (forall x, In x known -> e x <> None) ->
  exists e', o_nodes usem e l = Some e' /\ (forall x, In x (produced l) \/ e x <> None -> e' x <> None).
Proof.
  induction l as [|p l IH]; intros known e Hc He.
  - exists e. split; [reflexivity|]. intros x [[]|H]; exact H.
  - destruct Hc as [Hp Hc]. cbn [o_nodes]. unfold o_node.
    destruct (o_inputs_ok e (p_in p)) as [vs ->].
    { intros x Hx. destruct (Hp x Hx) as [|Hk]; [auto|right]. destruct (e x) eqn:E; [eauto|]. exfalso; exact (He x Hk E). }
    unfold usem at 1.
    destruct (bind_total (p_out p) (repeat tt (length (p_out p))) e) as [e1 E1]; [rewrite repeat_length; reflexivity|].
    rewrite E1. pose proof (@bind_defined unit) as Hd.
    destruct (IH (p_out p ++ known) e1 Hc) as (e' & Hr & Hdef).
    { intros x Hx. apply (Hd _ _ _ _ x E1). apply in_app_or in Hx. destruct Hx; auto. }
    exists e'. split; [exact Hr|]. intros x Hx. apply Hdef. cbn in Hx. rewrite in_app_iff in Hx.
    destruct Hx as [[Hx|Hx]|Hx].
    + right. apply (Hd _ _ _ _ x E1). auto.
    + left; exact Hx.
    + right. apply (Hd _ _ _ _ x E1). auto.
Qed.

Lemma args_read {V} (static : N -> option V) (e : string -> option V) : forall l vs,
  args_eval static e l = Some vs -> forall x, In x (reads l) -> e x <> None.
Proof.
  induction l as [|a l IH]; intros vs H x Hx; [destruct Hx|]. cbn in H.
  destruct (arg_eval static e a) as [v|] eqn:E; [|discriminate].
  destruct (args_eval static e l) as [ws|] eqn:E2; [|discriminate].
  unfold reads in Hx. cbn in Hx. unfold is_dynamic, is_constant in Hx. unfold arg_eval in E.
  destruct (asrc a); cbn in Hx; try (exact (IH _ eq_refl _ Hx));
    (destruct Hx as [<-|Hx]; [destruct (e (aname a)); [discriminate|cbn in E; discriminate]|exact (IH _ eq_refl _ Hx)]).
Qed.

Lemma run_closed {V} sem (static : N -> option V) : forall ns known (e e' : string -> option V),
  run sem static e ns = Some e' -> (forall x, e x <> None -> In x known) ->
  closed_nodes known ns /\ forall x, e' x <> None -> In x (flat_map (fun n => map aname (noutputs n)) ns ++ known).
Proof.
  induction ns as [|n ns IH]; intros known e e' Hr Hk.
  - injection Hr as <-. split; [exact I|]. exact Hk.
  - cbn [run] in Hr. unfold node_eval in Hr.
    destruct (args_eval static e (ninputs n)) as [vs|] eqn:Ea; [|discriminate].
    destruct (sem _ _ _ _) as [outs|]; [|discriminate].
    destruct (bind e (map aname (noutputs n)) outs) as [e1|] eqn:Eb; [|discriminate].
    destruct (IH (map aname (noutputs n) ++ known) e1 e' Hr) as [H1 H2].
    { intros x Hx. apply in_or_app. destruct (in_dec string_dec x (map aname (noutputs n))) as [|Hn]; [auto|].
      right. apply Hk. rewrite <- (bind_oth _ _ _ _ _ Eb Hn). exact Hx. }
    split.
    + split; [|exact H1]. intros x Hx. apply Hk. eapply args_read; eassumption.
    + intros x Hx. specialize (H2 x Hx). cbn. rewrite !in_app_iff in *. tauto.
Qed.

Lemma import_closed tinfo lift outer r g ns ins outs store : legal_graph g ->
  (forall k a, sget outer k = Some a -> asrc a = VDynamic) -> sget outer "" = None ->
  closed (in_names_of g ++ init_names_of g ++ map fst outer) (pg_nodes g) ->
  import tinfo lift outer r g = Some (ns, ins, outs, store) ->
  closed_nodes (map aname ins ++ map san (map fst outer)) ns /\
  length outs = length (pg_out g) /\
  incl (reads outs) (flat_map (fun n => map aname (noutputs n)) ns ++ map aname ins ++ map san (map fst outer)).
Proof.
  intros legal Hdyn Hemp Hcl Himp.
  destruct (import_shape tinfo lift outer r g ns ins outs store legal Hdyn Hemp Himp) as [Hins Hlen].
  set (plain := filter (fun x => negb (mem_str x (init_names_of g))) (in_names_of g)) in *.
  set (e := fun x : string => if (mem_str x plain || mem_str x (map fst outer))%bool then Some tt else None).
  set (ie := fun x : string => if (mem_str x (map aname ins ++ map san (map fst outer)))%bool then Some tt else None).
  assert (He : forall x, In x plain \/ In x (map fst outer) -> e x <> None).
  { intros x Hx. unfold e. destruct (mem_str x plain || mem_str x (map fst outer))%bool eqn:E; [discriminate|].
    apply orb_false_iff in E. destruct E as [E1 E2]. exfalso.
    apply mem_str_false in E1. apply mem_str_false in E2. tauto. }
  destruct (closed_runs (pg_nodes g) (in_names_of g ++ init_names_of g ++ map fst outer)
              (o_init (fun _ => tt) e (pg_init g)) Hcl) as (ef & Hef & Hdef).
  { intros x Hx. apply o_init_defined. rewrite !in_app_iff in Hx.
    destruct (in_dec string_dec x (init_names_of g)) as [|Hni]; [left; assumption|right]. apply He.
    destruct Hx as [Hx|[Hx|Hx]]; [left|contradiction|right; exact Hx].
    apply filter_In. split; [exact Hx|]. apply negb_true_iff, mem_str_false. exact Hni. }
  destruct (import_values usem (fun _ => tt) tinfo lift outer r g ns ins outs store usem_laws legal Hdyn Hemp Himp e ef ie)
    as (_ & ie' & Hrun & Hout).
  { intros o v _ _ Ho. destruct v. unfold ie. destruct (mem_str (san o) _) eqn:E; [reflexivity|].
    apply mem_str_false in E. exfalso. apply E. rewrite Hins. rewrite in_app_iff. unfold e in Ho.
    destruct (mem_str o plain || mem_str o (map fst outer))%bool eqn:Eo; [|discriminate].
    apply orb_true_iff in Eo. destruct Eo as [Eo|Eo]; apply mem_str_In in Eo; [left|right]; apply in_map; exact Eo. }
  { exact Hef. }
  destruct (run_closed _ _ _ (map aname ins ++ map san (map fst outer)) _ _ Hrun) as [H1 H2].
  { intros x Hx. unfold ie in Hx. destruct (mem_str x _) eqn:E; [apply mem_str_In; exact E|contradiction]. }
  split; [exact H1|]. split; [exact Hlen|].
  intros x Hx. apply H2. unfold reads in Hx. apply in_map_iff in Hx. destruct Hx as (a & <- & Ha).
  apply filter_In in Ha. destruct Ha as [Ha Hsrc].
  assert (Hall : Forall (fun x => ef (fst x) <> None) (pg_out g)).
  { apply Forall_forall. intros y Hy. apply Hdef.
    destruct (lg_outputs g legal (fst y) (in_map fst _ _ Hy)) as [Hi|[Hi|Hi]]; [right|right|left; exact Hi];
      apply o_init_defined.
    - destruct (in_dec string_dec (fst y) (init_names_of g)) as [|Hni]; [left; assumption|right]. apply He. left.
      apply filter_In. split; [exact Hi|]. apply negb_true_iff, mem_str_false. exact Hni.
    - left; exact Hi. }
  clear -Hout Ha Hsrc Hall.
  induction Hout as [|y b l l' Hyb Hl IH]; [destruct Ha|]. inversion Hall as [|? ? Hy Hr]; subst.
  destruct Ha as [->|Ha]; [|exact (IH Ha Hr)].
  destruct (ef (fst y)) as [v|] eqn:E; [|contradiction]. specialize (Hyb v eq_refl).
  unfold arg_eval in Hyb. unfold is_dynamic, is_constant in Hsrc.
  destruct (asrc a); try discriminate; destruct (ie' (aname a)); try discriminate; cbn in Hyb; discriminate.
Qed.
