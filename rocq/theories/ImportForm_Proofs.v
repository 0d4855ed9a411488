(** The form of imported nodes: which variant of an operator is chosen, what
    the inputs refer to, and the declared types. *)
From Verif Require Import IR_Model IR_Spec IR_Proofs Names_Model Import_Model Import_Spec Import_Proofs ImportForm_Spec.
Open Scope string_scope.
Open Scope list_scope.

Lemma all_some_spec {A} : forall (l : list (option A)) r, all_some l = Some r -> l = map Some r.
Proof.
  induction l as [|[x|] l IH]; intros r H; cbn in H; [inversion H; reflexivity| |discriminate].
  destruct (all_some l) as [r'|]; [|discriminate]. cbn in H. inversion H; subst. cbn. f_equal. apply IH. reflexivity.
Qed.

Lemma lift_at_in s : forall l i l', lift_at s l i = Some l' ->
  (forall a, In a l' -> In a l \/ exists id, asrc a = VStatic id) /\
  forall j, option_map aty (nth_error l' j) = option_map aty (nth_error l j).
Proof.
  induction l as [|a r IH]; intros i l' H; cbn in H.
  - inversion H; subst. split; [intros a []|reflexivity].
  - destruct i as [|i].
    + unfold to_static in H. destruct (is_constant a); [|discriminate].
      destruct (sget (g_cmap s) (aname a)) as [id|]; [|discriminate]. cbn in H. inversion H; subst. split.
      * intros b [<-|Hb]; [right; exists id; reflexivity|left; right; exact Hb].
      * intros [|j]; reflexivity.
    + destruct (lift_at s r i) as [r'|] eqn:E; [|discriminate]. cbn in H. inversion H; subst.
      destruct (IH _ _ E) as [I1 I2]. split.
      * intros b [<-|Hb]; [left; left; reflexivity|]. destruct (I1 b Hb); [left; right; assumption|right; assumption].
      * intros [|j]; [reflexivity|apply I2].
Qed.

Lemma lift_all_in s : forall is l l', lift_all s l is = Some l' ->
  (forall a, In a l' -> In a l \/ exists id, asrc a = VStatic id) /\
  forall j, option_map aty (nth_error l' j) = option_map aty (nth_error l j).
Proof.
  induction is as [|i is IH]; intros l l' H; cbn in H.
  - inversion H; subst. auto.
  - destruct (lift_at s l i) as [l1|] eqn:E; [|discriminate]. destruct (lift_at_in _ _ _ _ E) as [A1 A2].
    destruct (IH _ _ H) as [B1 B2]. split.
    + intros a Ha. destruct (B1 a Ha) as [Hb|Hb]; [apply A1; exact Hb|right; exact Hb].
    + intros j. rewrite B2. apply A2.
Qed.

Definition variants : list (string * string) :=
  [("conv1d", "Conv"); ("conv2d", "Conv"); ("conv3d", "Conv");
   ("convtranspose1d", "ConvTranspose"); ("convtranspose2d", "ConvTranspose"); ("convtranspose3d", "ConvTranspose");
   ("maxpool1d", "MaxPool"); ("maxpool2d", "MaxPool"); ("averagepool1d", "AveragePool"); ("averagepool2d", "AveragePool")].

Lemma kernel_variant_in b k : (b = "Conv" \/ b = "ConvTranspose" \/ b = "MaxPool" \/ b = "AveragePool") ->
  (1 <= k <= 3)%N -> (b = "MaxPool" \/ b = "AveragePool" -> k <= 2)%N ->
  In (lower (b ++ dec k ++ "d"), b) variants.
Proof.
  intros Hb Hk H2. assert (K : k = 1%N \/ k = 2%N \/ k = 3%N) by lia.
  destruct Hb as [-> |[-> |[-> | ->]]]; destruct K as [-> |[-> | ->]]; try (specialize (H2 ltac:(auto)); lia); cbn; tauto.
Qed.

Lemma spatial_ok n k : spatial_dims n = Some k -> spatial n k.
Proof.
  unfold spatial_dims, spatial. destruct (get_attr n "kernel_shape") as [[]|]; try discriminate.
  - intros H. left. injection H as <-. eexists. split; reflexivity.
  - destruct (_ || _)%bool; [|discriminate].
    destruct (nth_error (ninputs n) 1) as [a|]; [|discriminate]. destruct (aty a) as [| | |t] eqn:Et; try discriminate.
    destruct (N.leb_spec 2 (tt_rank t)); [|discriminate]. intros E. right. split; [reflexivity|].
    exists a, t. injection E as <-. repeat split; try reflexivity; [exact Et|lia].
Qed.

Lemma remap_form n n2 : remap_node_type n = Some n2 -> ninputs n2 = ninputs n /\ noutputs n2 = noutputs n /\ nattrs n2 = nattrs n /\
  ((exists b k, In b ["Conv"; "ConvTranspose"; "MaxPool"; "AveragePool"] /\ (1 <= k <= 3)%N /\ ntype n2 = (b ++ dec k ++ "d")%string /\ spatial n k) \/
   n2 = n /\ ~ In (ntype n) ["Conv"; "ConvTranspose"; "MaxPool"; "AveragePool"]).
Proof.
  unfold remap_node_type. intros H.
  assert (K : forall upto b, (upto <= 3)%N -> ntype n = b -> In b ["Conv"; "ConvTranspose"; "MaxPool"; "AveragePool"] ->
    match spatial_dims n with Some k => option_map (set_type n) (by_dims (ntype n) upto k) | None => None end = Some n2 ->
    ninputs n2 = ninputs n /\ noutputs n2 = noutputs n /\ nattrs n2 = nattrs n /\
    exists b k, In b ["Conv"; "ConvTranspose"; "MaxPool"; "AveragePool"] /\ (1 <= k <= 3)%N /\ ntype n2 = (b ++ dec k ++ "d")%string /\ spatial n k).
  { intros upto b Hu Eb Hb HH. destruct (spatial_dims n) as [k|] eqn:Es; [|discriminate].
    unfold by_dims in HH. destruct ((1 <=? k) && (k <=? upto))%N%bool eqn:E; [|discriminate]. cbn in HH.
    injection HH as <-. repeat split. exists b, k. split; [exact Hb|]. split; [lia|]. cbn [ntype set_type]. rewrite Eb.
    split; [reflexivity|]. apply spatial_ok, Es. }
  destruct (String.eqb_spec (ntype n) "Conv") as [E|N1].
  { destruct (K 3%N _ ltac:(lia) E ltac:(cbn; tauto) H) as (A & B & C & D). auto. }
  destruct (String.eqb_spec (ntype n) "ConvTranspose") as [E|N2].
  { destruct (K 3%N _ ltac:(lia) E ltac:(cbn; tauto) H) as (A & B & C & D). auto. }
  destruct (String.eqb_spec (ntype n) "MaxPool") as [E|N3].
  { destruct (K 2%N _ ltac:(lia) E ltac:(cbn; tauto) H) as (A & B & C & D). auto. }
  destruct (String.eqb_spec (ntype n) "AveragePool") as [E|N4].
  { destruct (K 2%N _ ltac:(lia) E ltac:(cbn; tauto) H) as (A & B & C & D). auto. }
  injection H as <-. repeat split. right. split; [reflexivity|]. cbn. intuition congruence.
Qed.

(** What coalescing does to types, inputs and outputs. *)
Lemma coalesce_form s n rest n4 b : coalesce s n rest = Some (n4, b) ->
  (n4 = n /\ b = false) \/
  (In (ntype n) ["Gemm"; "MatMul"] /\ ntype n4 = "Linear" /\
   (b = false -> ninputs n4 = ninputs n /\ noutputs n4 = noutputs n) /\
   (ntype n = "Gemm" -> b = false) /\
   (b = true -> exists q rest' peek a, rest = q :: rest' /\ convert_node_proto s q = Some peek /\ In a (ninputs peek) /\
      ninputs n4 = ninputs n ++ [a] /\
      forall o, In o (noutputs n4) -> In (aname o) (map aname (noutputs n) ++ map aname (noutputs peek)))).
Proof.
  unfold coalesce. destruct (String.eqb_spec (ntype n) "Gemm") as [E|N1].
  - destruct (convert_gemm_to_linear n) as [m|] eqn:Eg; [|discriminate]. cbn. intros H.
    assert (Hm : m = n4) by congruence. assert (Hb : b = false) by congruence. subst m b.
    unfold convert_gemm_to_linear in Eg. destruct (noutputs n) as [|o [|]] eqn:Eo; try discriminate.
    destruct (is_int _ _); [left; injection Eg as <-; auto|].
    destruct (_ && _)%bool; [|left; injection Eg as <-; auto]. right. injection Eg as <-. cbn. rewrite E.
    split; [left; reflexivity|]. repeat split; try discriminate.
  - destruct (String.eqb_spec (ntype n) "MatMul") as [E|N2]; [|intros H; left; inversion H; auto].
    unfold convert_matmul_to_linear. destruct (ninputs n) as [|a0 [|w [|]]] eqn:Ei; try discriminate.
    destruct (negb _); [intros H; inversion H; left; auto|].
    destruct (aty w) as [| | |t]; try (intros H; inversion H; left; auto; fail).
    destruct (negb _); [intros H; inversion H; left; auto|].
    assert (Hsame : forall r, Some (set_type n "Linear", false) = Some r -> r = (n4, b) ->
      In (ntype n) ["Gemm"; "MatMul"] /\ ntype n4 = "Linear" /\
      (b = false -> ninputs n4 = [a0; w] /\ noutputs n4 = noutputs n) /\
      (ntype n = "Gemm" -> b = false) /\
      (b = true -> exists q rest' peek a, rest = q :: rest' /\ convert_node_proto s q = Some peek /\ In a (ninputs peek) /\
      ninputs n4 = [a0; w] ++ [a] /\
      forall o, In o (noutputs n4) -> In (aname o) (map aname (noutputs n) ++ map aname (noutputs peek)))).
    { intros r Hr Hrr. rewrite Hrr in Hr. assert (n4 = set_type n "Linear") by congruence. assert (b = false) by congruence.
      subst n4 b. cbn [ntype set_type ninputs noutputs]. rewrite E. repeat split; try discriminate; [cbn; tauto|]. exact Ei. }
    destruct rest as [|q rest']; [intros H; right; eapply Hsame; [exact H|reflexivity]|].
    destruct (convert_node_proto s q) as [peek|] eqn:Ep; [|discriminate].
    destruct (noutputs (set_type n "Linear")) as [|x xs] eqn:Ex.
    { destruct (_ && _)%bool; [discriminate|]. intros H. right. eapply Hsame; [exact H|reflexivity]. }
    destruct (is_add_with_bias s peek (aname x)); [|intros H; right; eapply Hsame; [exact H|reflexivity]].
    unfold add_bias. destruct (ninputs peek) as [|pa [|pb [|]]] eqn:Epi; try discriminate.
    destruct (noutputs peek) as [|po pos] eqn:Epo; [discriminate|]. rewrite Ex. cbn. intros H. right. injection H as <- <-. cbn. rewrite E, Ei.
    repeat split; try discriminate; [tauto|]. intros _.
    exists q, rest', peek, (if String.eqb (aname pa) (aname x) then pb else pa). repeat split; try assumption.
    { rewrite Epi. destruct (String.eqb _ _); cbn; auto. }
    intros o Ho. cbn [noutputs set_type] in Ex. rewrite Ex, ?Epo. cbn in Ho. apply in_app_iff.
    destruct Ho as [<-|Ho]; [right; left; reflexivity|left; right; apply in_map, Ho].
Qed.

Lemma add_outputs_form : forall outs idx name k cid om cm outs' om' cm',
  add_outputs idx name k cid outs om cm = (outs', om', cm') ->
  map aty outs' = map aty outs /\
  (forall y, sget om' y = sget om y \/
    exists j o, nth_error outs j = Some o /\ aname o = y /\ sget om' y = Some (idx, (k + j)%nat)) /\
  forall o, In o outs -> exists j o', nth_error outs j = Some o' /\ aname o' = aname o /\ sget om' (aname o) = Some (idx, (k + j)%nat).
Proof.
  induction outs as [|o r IH]; intros idx name k cid om cm outs' om' cm' H; cbn in H.
  - inversion H; subst. repeat split; auto. intros o [].
  - destruct (add_outputs idx name (S k) cid r (sput om (aname o) (idx, k)) _) as [[o1 m1] c1] eqn:E.
    inversion H; subst. destruct (IH _ _ _ _ _ _ _ _ _ E) as (A1 & A2 & A3). split; [cbn; f_equal; exact A1|].
    assert (Y : forall y, sget om' y = sget om y /\ aname o <> y \/
      exists j o', nth_error (o :: r) j = Some o' /\ aname o' = y /\ sget om' y = Some (idx, (k + j)%nat)).
    { intros y. destruct (A2 y) as [Hy|(j & o' & Hj & Hn & Hy)].
    + destruct (String.eqb_spec (aname o) y) as [Ey|Ny].
      * right. exists 0%nat, o. split; [reflexivity|]. split; [exact Ey|]. rewrite Nat.add_0_r, Hy, <- Ey. apply sput_same.
      * left. split; [|exact Ny]. rewrite Hy. apply sput_oth. congruence.
    + right. exists (S j), o'. split; [exact Hj|]. split; [exact Hn|]. rewrite Hy. f_equal. f_equal. lia. }
    split; [intros y; destruct (Y y) as [[Hy _]|Hy]; auto|]. intros oo [<-|Ho].
    + destruct (Y (aname o)) as [[_ N]|Hy]; [contradiction|exact Hy].
    + destruct (A3 oo Ho) as (j & o' & Hj & Hn & Hy). exists (S j), o'. split; [exact Hj|]. split; [exact Hn|]. rewrite Hy. f_equal. f_equal. lia.
Qed.

Section Form.
  Variable tinfo : N -> dtype * list N.
  Variable lift : rnode -> list nat.

  Lemma extract_form s n s1 n1 : extract_constant tinfo s n = (s1, n1) ->
    ntype n1 = ntype n /\ nattrs n1 = nattrs n1 /\ (forall a, In a (ninputs n1) -> In a (ninputs n) \/ exists id, asrc a = VStatic id) /\
    g_nodes s1 = g_nodes s /\ g_inputs s1 = g_inputs s /\ g_outputs s1 = g_outputs s /\ g_vinfo s1 = g_vinfo s /\ g_outer s1 = g_outer s /\
    g_inmap s1 = g_inmap s /\ g_outmap s1 = g_outmap s.
  Proof.
    unfold extract_constant. destruct (find _ _); [|intros H; inversion H; subst; auto 15].
    destruct (sget _ _) as [a|]; [|intros H; inversion H; subst; auto 15].
    destruct (const_ty tinfo a); [|intros H; inversion H; subst; auto 15].
    intros H. inversion H; subst. cbn. repeat split. intros b Hb. apply in_app_iff in Hb.
    destruct Hb as [Hb|[<-|[]]]; [left; exact Hb|right]. eexists; reflexivity.
  Qed.

  Definition fixed (s s' : gstate) : Prop :=
    g_inputs s' = g_inputs s /\ g_outputs s' = g_outputs s /\ g_vinfo s' = g_vinfo s /\ g_outer s' = g_outer s /\ g_inmap s' = g_inmap s.

  Lemma init_in_fixed s s' x : g_nodes s' = g_nodes s -> g_outmap s' = g_outmap s -> fixed s s' -> init_in s' x = init_in s x.
  Proof.
    intros E1 E2 (A & B & C & D & E). unfold init_in, node_output. rewrite E1, E2, A, D, E. reflexivity.
  Qed.

  Lemma step_form s p rest s' b : convert_step tinfo lift s p rest = Some (s', b) ->
    fixed s s' /\
    exists n', g_nodes s' = g_nodes s ++ [n'] /\
      (forall a, In a (ninputs n') -> (exists id, asrc a = VStatic id) \/ exists x, In x (consumed (p :: rest)) /\ init_in s x = Some a) /\
      (ntype n' = "Linear" \/
       (exists b k, In b ["Conv"; "ConvTranspose"; "MaxPool"; "AveragePool"] /\ (1 <= k <= 3)%N /\ ntype n' = (b ++ dec k ++ "d")%string /\ spatial n' k) \/
       parse_type (p_op p) = Some (ntype n') /\ ~ In (ntype n') ["Conv"; "ConvTranspose"; "MaxPool"; "AveragePool"]) /\
      (lower (p_op p) <> "constant" -> lower (p_op p) <> "matmul" ->
       b = false /\ map aty (noutputs n') = map (fun x => aty (proto_output s x)) (p_out p) /\
       forall x, In x (p_out p) ->
         exists j x', nth_error (p_out p) j = Some x' /\ san x' = san x /\ sget (g_outmap s') (san x) = Some (length (g_nodes s), j)) /\
      (forall y, sget (g_outmap s') y = sget (g_outmap s) y \/
         ((exists x, In x (produced (p :: firstn (if b then 1 else 0) rest)) /\ san x = y) /\ exists j, sget (g_outmap s') y = Some (length (g_nodes s), j))).
  Proof.
    unfold convert_step. destruct (convert_node_proto s p) as [n0|] eqn:E0; [|discriminate].
    destruct (mem_str _ _); [discriminate|].
    destruct (if String.eqb (ntype n0) "Constant" then extract_constant tinfo s n0 else (s, n0)) as [s1 n1] eqn:E1.
    destruct (remap_node_type n1) as [n2|] eqn:E2; [|discriminate].
    destruct (rename_node s1 n2) as [s3 n3] eqn:E3.
    destruct (coalesce s3 n3 rest) as [[n4 b']|] eqn:E4; [|discriminate].
    destruct (if String.eqb (ntype n4) (ntype n3) then (s3, n4) else rename_node s3 n4) as [s5 n5] eqn:E5.
    destruct (lift_node lift s5 n5) as [n6|] eqn:E6; [|discriminate]. intros H.
    assert (Hb : b' = b) by congruence. subst b'. assert (Hs' : s' = add_node s5 n6) by congruence. clear H.
    (* the node of the proto *)
    unfold convert_node_proto in E0. destruct (parse_type (p_op p)) as [t|] eqn:Et; [|discriminate].
    destruct (all_some (map (init_in s) (p_in p))) as [ins0|] eqn:Ea; [|discriminate]. injection E0 as <-. cbn [ntype] in *.
    assert (Hin0 : forall a, In a ins0 -> exists x, In x (p_in p) /\ init_in s x = Some a).
    { intros a Ha. apply all_some_spec in Ea. assert (Hm : In (Some a) (map (init_in s) (p_in p))) by (rewrite Ea; apply in_map, Ha).
      apply in_map_iff in Hm. destruct Hm as (x & Hx & Hx2). exists x. auto. }
    assert (Hname : forall xs, map aname (map (proto_output s) xs) = map san xs).
    { intros xs. rewrite map_map. apply map_ext. intros x. unfold proto_output. destruct (find _ _); [reflexivity|]. destruct (sget _ _); reflexivity. }
    (* constants *)
    set (outs0 := map (proto_output s) (p_out p)) in *.
    assert (H1 : ntype n1 = t /\ (forall a, In a (ninputs n1) -> In a ins0 \/ exists id, asrc a = VStatic id) /\
      g_nodes s1 = g_nodes s /\ g_outmap s1 = g_outmap s /\ fixed s s1 /\ (t <> "Constant" -> noutputs n1 = outs0) /\
      map aname (noutputs n1) = map san (p_out p)).
    { destruct (String.eqb_spec t "Constant") as [Ec|Nc].
      - pose proof (extract_form _ _ _ _ E1) as (A1 & _ & A2 & A3 & A4 & A5 & A6 & A7 & A8 & A9). cbn in A1, A2.
        split; [congruence|]. split; [exact A2|]. split; [exact A3|]. split; [exact A9|]. split; [repeat split; assumption|].
        split; [contradiction|]. rewrite <- Hname.
        unfold extract_constant in E1. destruct (find _ _); [|injection E1 as _ <-; reflexivity].
        destruct (sget _ _) as [a|]; [|injection E1 as _ <-; reflexivity].
        destruct (const_ty tinfo a); [|injection E1 as _ <-; reflexivity].
        injection E1 as _ <-. cbn. fold outs0. destruct outs0; reflexivity.
      - injection E1 as <- <-. cbn. repeat split; auto. apply Hname. }
    destruct H1 as (H1t & H1i & H1n & H1m & H1f & H1o & H1a).
    destruct (remap_form _ _ E2) as (H2i & H2o & _ & H2t).
    assert (H3 : ntype n3 = ntype n2 /\ ninputs n3 = ninputs n2 /\ noutputs n3 = noutputs n2 /\ nattrs n3 = nattrs n2 /\
      g_nodes s3 = g_nodes s /\ g_outmap s3 = g_outmap s /\ fixed s s3).
    { unfold rename_node, generate_node_name in E3. injection E3 as <- <-. cbn. destruct H1f as (F1 & F2 & F3 & F4 & F5).
      repeat split; cbn; assumption. }
    destruct H3 as (H3t & H3i & H3o & H3a & H3n & H3m & H3f).
    assert (H5 : ntype n5 = ntype n4 /\ ninputs n5 = ninputs n4 /\ noutputs n5 = noutputs n4 /\ nattrs n5 = nattrs n4 /\
      g_nodes s5 = g_nodes s /\ g_outmap s5 = g_outmap s /\ fixed s s5).
    { destruct (String.eqb (ntype n4) (ntype n3)); [injection E5 as <- <-; auto 10|].
      unfold rename_node, generate_node_name in E5. injection E5 as <- <-. cbn. destruct H3f as (F1 & F2 & F3 & F4 & F5).
      repeat split; cbn; assumption. }
    destruct H5 as (H5t & H5i & H5o & H5a & H5n & H5m & H5f).
    unfold lift_node in E6. destruct (lift_all s5 (ninputs n5) (lift n5)) as [l6|] eqn:El; [|discriminate]. cbn in E6. injection E6 as <-.
    destruct (lift_all_in _ _ _ _ El) as [L1 L2].
    unfold add_node in Hs'. cbn [ntype nname ninputs noutputs nattrs] in Hs'.
    destruct (add_outputs _ _ _ _ _ _ _) as [[outs' om'] cm'] eqn:Eo.
    destruct (add_outputs_form _ _ _ _ _ _ _ _ _ _ Eo) as (O1 & O2 & O3). subst s'. cbn [g_nodes g_inputs g_outputs g_vinfo g_outer g_outmap].
    split; [exact H5f|]. eexists. split; [rewrite H5n; reflexivity|]. cbn [ntype ninputs noutputs].
    assert (Hname3 : forall xs, map aname (map (proto_output s3) xs) = map san xs).
    { intros xs. rewrite map_map. apply map_ext. intros x. unfold proto_output. destruct (find _ _); [reflexivity|]. destruct (sget _ _); reflexivity. }
    assert (Hc : (n4 = n3 /\ b = false) \/ (In t ["Gemm"; "MatMul"] /\ ntype n4 = "Linear" /\
       (b = false -> ninputs n4 = ninputs n3 /\ noutputs n4 = noutputs n3) /\ (t = "Gemm" -> b = false) /\
       (b = true -> exists a x q rest', rest = q :: rest' /\ In x (p_in q) /\ init_in s x = Some a /\ ninputs n4 = ninputs n3 ++ [a] /\
         forall o, In o (noutputs n4) -> In (aname o) (map aname (noutputs n3) ++ map san (p_out q))))).
    { destruct (coalesce_form _ _ _ _ _ E4) as [C|(C1 & C2 & C3 & C4 & C5)]; [left; exact C|]. right.
      assert (Htt : ntype n3 = t).
      { rewrite H3t. destruct H2t as [(bb & k & Hbb & Hk & Ht2 & _)|[-> _]]; [|exact H1t]. exfalso.
        rewrite H3t, Ht2 in C1. assert (K : k = 1%N \/ k = 2%N \/ k = 3%N) by lia.
        cbn [In] in Hbb. destruct Hbb as [<-|[<-|[<-|[<-|[]]]]]; destruct K as [-> |[-> | ->]]; cbn in C1; intuition discriminate. }
      rewrite Htt in C1, C4. split; [exact C1|]. split; [exact C2|]. split; [exact C3|]. split; [exact C4|].
      intros Hbt. destruct (C5 Hbt) as (q & rest' & peek & a & Hr & Hq & Ha & Hin & Hnm). unfold convert_node_proto in Hq.
      destruct (parse_type (p_op q)); [|discriminate]. destruct (all_some (map (init_in s3) (p_in q))) as [qi|] eqn:Eq; [|discriminate].
      injection Hq as <-. cbn [ninputs] in Ha. cbn [noutputs] in Hnm. apply all_some_spec in Eq.
      assert (Hm : In (Some a) (map (init_in s3) (p_in q))) by (rewrite Eq; apply in_map, Ha).
      apply in_map_iff in Hm. destruct Hm as (x & Hx & Hx2). exists a, x, q, rest'. split; [exact Hr|]. split; [exact Hx2|].
      split; [rewrite <- (init_in_fixed s s3 x H3n H3m H3f); exact Hx|]. split; [exact Hin|]. intros o Ho. rewrite <- (Hname3 (p_out q)). apply Hnm, Ho. }
    assert (Hin3 : forall a, In a (ninputs n3) -> (exists id, asrc a = VStatic id) \/ exists x, In x (consumed (p :: rest)) /\ init_in s x = Some a).
    { intros a Ha. rewrite H3i, H2i in Ha. destruct (H1i a Ha) as [Ha'|Ha']; [|left; exact Ha']. right.
      destruct (Hin0 a Ha') as (x & Hx & Hx2). exists x. split; [cbn; apply in_app_iff; left; exact Hx|exact Hx2]. }
    split.
    { intros a Ha. destruct (L1 a Ha) as [Ha'|Ha']; [|left; exact Ha']. rewrite H5i in Ha'.
      destruct Hc as [[-> _]|(_ & _ & C3 & _ & C5)]; [apply Hin3, Ha'|]. destruct b.
      - destruct (C5 eq_refl) as (a' & x & q & rest' & -> & Hx & Hx2 & Hin & _). rewrite Hin in Ha'. apply in_app_iff in Ha'.
        destruct Ha' as [Ha'|[<-|[]]]; [apply Hin3, Ha'|]. right. exists x. split; [|exact Hx2]. cbn. rewrite !in_app_iff. auto.
      - destruct (C3 eq_refl) as [Hi _]. rewrite Hi in Ha'. apply Hin3, Ha'. }
    split.
    { rewrite H5t. destruct Hc as [[-> _]|(_ & C2 & _)]; [|left; exact C2]. right. rewrite H3t.
      destruct H2t as [(bb & k & Hbb & Hk & Ht2 & Hsp)|[-> Hno]].
      - left. exists bb, k. split; [exact Hbb|]. split; [exact Hk|]. split; [exact Ht2|].
        destruct Hsp as [(l & Hl & Hk')|(Hl & a & ty & Ha & Hty & Hk')].
        + left. exists l. split; [|exact Hk']. unfold get_attr in *. cbn [nattrs]. rewrite H5a, H3a.
          assert (Hat : nattrs n2 = nattrs n1) by (destruct (remap_form _ _ E2) as (_ & _ & Q & _); exact Q). rewrite Hat. exact Hl.
        + right. split.
          { unfold get_attr in *. cbn [nattrs]. rewrite H5a, H3a.
            assert (Hat : nattrs n2 = nattrs n1) by (destruct (remap_form _ _ E2) as (_ & _ & Q & _); exact Q). rewrite Hat. exact Hl. }
          specialize (L2 1%nat). rewrite H5i, H3i, H2i, Ha in L2. cbn [ninputs]. destruct (nth_error l6 1) as [a'|]; [|discriminate].
          cbn in L2. injection L2 as L2. exists a', ty. split; [reflexivity|]. split; [congruence|exact Hk'].
      - right. rewrite H1t in *. split; [reflexivity|exact Hno]. }
    assert (Hlow : lower t = lower (p_op p)) by (apply (parse_ok _ _ Et)).
    assert (Hnames4 : b = false -> map aname (noutputs n5) = map san (p_out p)).
    { intros Hb. rewrite H5o. destruct Hc as [[-> _]|(_ & _ & C3 & _)]; [|destruct (C3 Hb) as [_ ->]]; rewrite H3o, H2o; exact H1a. }
    split.
    { intros Nc Nm. assert (Ht1 : t <> "Constant") by (intros ->; cbn in Hlow; congruence).
      assert (Ht2 : t <> "MatMul") by (intros ->; cbn in Hlow; congruence).
      assert (Hbf : b = false /\ noutputs n4 = outs0).
      { destruct Hc as [[-> Hb]|(C1 & _ & C3 & C4 & _)].
        - split; [exact Hb|]. rewrite H3o, H2o. exact (H1o Ht1).
        - cbn in C1. destruct C1 as [C1|[C1|[]]]; [|congruence]. assert (Hb : b = false) by (apply C4; congruence).
          split; [exact Hb|]. destruct (C3 Hb) as [_ Ho]. rewrite Ho, H3o, H2o. exact (H1o Ht1). }
      destruct Hbf as [Hb Ho4]. split; [exact Hb|]. split.
      - rewrite O1, H5o, Ho4. unfold outs0. rewrite map_map. reflexivity.
      - intros x Hx. assert (Hn0 : forall z, aname (proto_output s z) = san z).
        { intros z. unfold proto_output. destruct (find _ _); [reflexivity|]. destruct (sget (g_vinfo s) z); reflexivity. }
        destruct (O3 (proto_output s x)) as (j & o & Hj & Hn & Hy).
        { rewrite H5o, Ho4. apply in_map, Hx. }
        rewrite H5o, Ho4 in Hj. unfold outs0 in Hj. rewrite nth_error_map in Hj.
        destruct (nth_error (p_out p) j) as [x'|] eqn:Ej; [|discriminate]. cbn in Hj. injection Hj as <-.
        exists j, x'. split; [exact Ej|]. rewrite !Hn0 in *. split; [exact Hn|]. rewrite <- H5n. exact Hy. }
    intros y. destruct (O2 y) as [Hy|(j & o & Hj & Hn & Hy)]; [left; rewrite <- H5m; exact Hy|]. right.
    split; [|exists j; rewrite <- H5n; exact Hy].
    assert (Hiny : In y (map aname (noutputs n5))) by (rewrite <- Hn; apply in_map; eapply nth_error_In; exact Hj).
    destruct b.
    - (* fused *)
      destruct Hc as [[_ Hb]|(_ & _ & _ & _ & C5)]; [discriminate|].
      destruct (C5 eq_refl) as (a' & x & q & rest' & -> & _ & _ & _ & Hnm). rewrite H5o in Hiny. apply in_map_iff in Hiny.
      destruct Hiny as (o' & <- & Ho'). specialize (Hnm o' Ho'). rewrite H3o, H2o, H1a, <- map_app in Hnm.
      apply in_map_iff in Hnm. destruct Hnm as (x' & Hx' & Hin'). exists x'. split; [|exact Hx'].
      cbn. rewrite app_nil_r. exact Hin'.
    - rewrite (Hnames4 eq_refl) in Hiny. apply in_map_iff in Hiny. destruct Hiny as (x & Hx & Hx2). exists x. split; [|exact Hx].
      cbn. rewrite app_nil_r. exact Hx2.
  Qed.

  Lemma convert_ind (P : list pnode -> gstate -> Prop) :
    (forall s p rest s' b, P (p :: rest) s -> convert_step tinfo lift s p rest = Some (s', b) -> P (if b then tl rest else rest) s') ->
    forall k l s s', (length l <= k)%nat -> P l s -> convert_nodes tinfo lift s l = Some s' -> P [] s'.
  Proof.
    intros Hstep. induction k as [|k IH]; intros l s s' Hk HP H.
    - destruct l; [|cbn in Hk; lia]. injection H as <-. exact HP.
    - destruct l as [|p rest]; [injection H as <-; exact HP|]. cbn [convert_nodes] in H.
      destruct (convert_step tinfo lift s p rest) as [[s1 b]|] eqn:E; [|discriminate].
      pose proof (Hstep _ _ _ _ _ HP E) as HP1. cbn in Hk. destruct rest as [|q rest'].
      + injection H as <-. destruct b; exact HP1.
      + destruct b; (eapply IH; [|exact HP1|exact H]); cbn in *; lia.
  Qed.

  (** The states the conversion starts from. *)
  Lemma init_nodes_form : forall l r store r' store' ns cm, process_initializers tinfo r store l = (r', store', ns, cm) ->
    forall n, In n ns -> ntype n = "Constant" /\ forall a, In a (ninputs n) -> exists id, asrc a = VStatic id.
  Proof.
    induction l as [|[x p] l IH]; intros r store r' store' ns cm H n Hn; cbn in H.
    - inversion H; subst. destruct Hn.
    - destruct (process_initializers tinfo _ (store ++ [ATensor p]) l) as [[[r2 st2] ns2] cm2] eqn:E.
      inversion H; subst. destruct Hn as [<-|Hn]; [|eapply IH; eassumption]. split; [reflexivity|].
      intros a [<-|[]]. eexists. reflexivity.
  Qed.

  Lemma new_state_form outer r g : let s := new_state tinfo outer r g in
    (forall n, In n (g_nodes s) -> ntype n = "Constant" /\ forall a, In a (ninputs n) -> exists id, asrc a = VStatic id) /\
    g_outer s = outer /\ g_outputs s = map graph_output (pg_out g).
  Proof.
    unfold new_state. destruct (process_initializers tinfo r [] (pg_init g)) as [[[r1 st] ns] cm] eqn:E.
    destruct (init_inputs _ _ _ _ _) as [ins im]. cbn. split; [|auto]. eapply init_nodes_form. exact E.
  Qed.

  Lemma node_output_in s ij a : node_output s ij = Some a -> exists n, In n (g_nodes s) /\ In a (noutputs n).
  Proof.
    unfold node_output. destruct (nth_error (g_nodes s) (fst ij)) as [n|] eqn:E; [|discriminate].
    intros H. exists n. split; eapply nth_error_In; eassumption.
  Qed.

  Lemma from_name_src x : asrc (from_name x) <> VConstant.
  Proof. unfold from_name. cbn. destruct (String.eqb x ""); discriminate. Qed.

  Lemma init_in_resolved g s x a : In x (consumed (pg_nodes g)) -> init_in s x = Some a ->
    resolved (g_outer s) g (g_nodes s) (g_inputs s) a.
  Proof.
    intros Hx. unfold init_in. destruct (sget (g_inmap s) x).
    { intros H. right. left. eapply nth_error_In, H. }
    destruct (sget (g_outmap s) (san x)). { intros H. right. right. left. eapply node_output_in, H. }
    destruct (sget (g_outmap s) x). { intros H. right. right. left. eapply node_output_in, H. }
    assert (Ho : forall k b, sget (g_outer s) k = Some b -> Some (outer_ref (san x) b) = Some a ->
      resolved (g_outer s) g (g_nodes s) (g_inputs s) a).
    { intros k b Hk H. injection H as <-. unfold outer_ref, is_constant. destruct (asrc b) eqn:Eb; do 3 right;
        try (right; cbn; rewrite ?Eb; split; [discriminate|exists x; auto]). left. exists k. auto. }
    destruct (sget (g_outer s) (san x)) as [b|] eqn:E1; [intros H; eapply Ho; eassumption|].
    destruct (sget (g_outer s) x) as [b|] eqn:E2; [intros H; eapply Ho; eassumption|].
    intros H. injection H as <-. do 4 right. split; [apply from_name_src|]. exists x. auto.
  Qed.

  Lemma resolved_mono outer g ns ns' ins a : incl ns ns' -> resolved outer g ns ins a -> resolved outer g ns' ins a.
  Proof.
    intros Hi [H|[H|[(n & H1 & H2)|H]]]; [left; exact H|right; left; exact H| |do 3 right; exact H].
    right. right. left. exists n. auto.
  Qed.

  Lemma import_state outer r g ns ins outs store : import tinfo lift outer r g = Some (ns, ins, outs, store) ->
    exists s, convert_nodes tinfo lift (new_state tinfo outer r g) (pg_nodes g) = Some s /\ ns = g_nodes s /\ ins = g_inputs s /\
      exists l, all_some (map (find_output s) (g_outputs s)) = Some l /\ outs = keep_some l.
  Proof.
    unfold import. destruct (convert_nodes _ _ _ _) as [s|]; [|discriminate]. unfold consume.
    destruct (all_some (map (find_output s) (g_outputs s))) as [l|] eqn:E; [|discriminate]. intros H. exists s.
    split; [reflexivity|]. injection H as <- <- <- _. repeat split. exists l. auto.
  Qed.

  Lemma inputs_resolved outer r g ns ins outs store : import tinfo lift outer r g = Some (ns, ins, outs, store) ->
    forall n a, In n ns -> In a (ninputs n) -> resolved outer g ns ins a.
  Proof.
    intros H. destruct (import_state _ _ _ _ _ _ _ H) as (s & Hc & -> & -> & _). clear H.
    pose (P := fun (l : list pnode) (s : gstate) => (exists pre, pg_nodes g = pre ++ l) /\ g_outer s = outer /\
      forall n a, In n (g_nodes s) -> In a (ninputs n) -> resolved outer g (g_nodes s) (g_inputs s) a).
    assert (HP : P [] s); [|apply HP].
    eapply (convert_ind P); [|reflexivity| |exact Hc].
    - intros s0 p rest s' b ((pre & Hg) & Hout & Hall) Hs.
      destruct (step_form _ _ _ _ _ Hs) as ((F1 & F2 & F3 & F4 & F5) & n' & Hn & Hin & _).
      split; [|split; [congruence|]].
      + destruct b; [|exists (pre ++ [p]); rewrite <- app_assoc; exact Hg].
        destruct rest as [|q rest']; [exists (pre ++ [p]); rewrite <- app_assoc; exact Hg|].
        exists (pre ++ [p; q]). rewrite <- app_assoc. exact Hg.
      + intros n a Hn1 Ha. rewrite F1, Hn. rewrite Hn in Hn1. apply in_app_iff in Hn1.
        apply (resolved_mono _ _ (g_nodes s0)); [apply incl_appl, incl_refl|]. destruct Hn1 as [Hn1|[<-|[]]]; [exact (Hall n a Hn1 Ha)|].
        destruct (Hin a Ha) as [Hst|(x & Hx & Hx2)]; [left; exact Hst|]. rewrite <- Hout. apply (init_in_resolved _ _ x); [|exact Hx2].
        rewrite Hg. unfold consumed. rewrite flat_map_app. apply in_app_iff. right. exact Hx.
    - destruct (new_state_form outer r g) as (N1 & N2 & _). split; [exists []; reflexivity|]. split; [exact N2|].
      intros n a Hn Ha. left. exact (proj2 (N1 n Hn) a Ha).
  Qed.

  Lemma variant_unique b k b' k' : In b ["Conv"; "ConvTranspose"; "MaxPool"; "AveragePool"] -> (1 <= k <= 3)%N ->
    In b' ["Conv"; "ConvTranspose"; "MaxPool"; "AveragePool"] -> (1 <= k' <= 3)%N ->
    (b ++ dec k ++ "d" = b' ++ dec k' ++ "d")%string -> k = k'.
  Proof.
    intros Hb Hk Hb' Hk'. assert (K : k = 1%N \/ k = 2%N \/ k = 3%N) by lia. assert (K' : k' = 1%N \/ k' = 2%N \/ k' = 3%N) by lia.
    cbn [In] in Hb, Hb'. destruct Hb as [<-|[<-|[<-|[<-|[]]]]]; destruct Hb' as [<-|[<-|[<-|[<-|[]]]]];
      destruct K as [-> |[-> | ->]]; destruct K' as [-> |[-> | ->]]; vm_compute; (reflexivity || discriminate).
  Qed.

  Lemma variants_spatial outer r g ns ins outs store : (forall p, In p (pg_nodes g) -> legal_node p) ->
    import tinfo lift outer r g = Some (ns, ins, outs, store) ->
    forall n, In n ns -> ~ In (ntype n) ["Conv"; "ConvTranspose"; "MaxPool"; "AveragePool"] /\
      forall b k, In b ["Conv"; "ConvTranspose"; "MaxPool"; "AveragePool"] -> (1 <= k <= 3)%N -> (k <= 2 \/ b = "Conv" \/ b = "ConvTranspose")%N ->
        ntype n = (b ++ dec k ++ "d")%string -> spatial n k.
  Proof.
    intros Hleg H. destruct (import_state _ _ _ _ _ _ _ H) as (s & Hc & -> & _). clear H.
    pose (Q := fun n : rnode => ~ In (ntype n) ["Conv"; "ConvTranspose"; "MaxPool"; "AveragePool"] /\
      forall b k, In b ["Conv"; "ConvTranspose"; "MaxPool"; "AveragePool"] -> (1 <= k <= 3)%N -> (k <= 2 \/ b = "Conv" \/ b = "ConvTranspose")%N ->
        ntype n = (b ++ dec k ++ "d")%string -> spatial n k).
    pose (P := fun (l : list pnode) (s : gstate) => (exists pre, pg_nodes g = pre ++ l) /\ forall n, In n (g_nodes s) -> Q n).
    assert (HP : P [] s); [|apply HP].
    assert (Hother : forall n : rnode, (ntype n = "Linear" \/ ntype n = "Constant") -> Q n).
    { intros n Hn. split; [cbn; destruct Hn as [-> | ->]; intuition discriminate|]. intros b k Hb Hk _ E.
      assert (K : k = 1%N \/ k = 2%N \/ k = 3%N) by lia. cbn [In] in Hb.
      destruct Hn as [Hn|Hn]; rewrite Hn in E; destruct Hb as [<-|[<-|[<-|[<-|[]]]]];
        destruct K as [-> |[-> | ->]]; vm_compute in E; discriminate. }
    eapply (convert_ind P); [|reflexivity| |exact Hc].
    - intros s0 p rest s' bb ((pre & Hg) & Hall) Hs.
      destruct (step_form _ _ _ _ _ Hs) as (_ & n' & Hn & _ & Hty & _).
      split.
      + destruct bb; [|exists (pre ++ [p]); rewrite <- app_assoc; exact Hg].
        destruct rest as [|q rest']; [exists (pre ++ [p]); rewrite <- app_assoc; exact Hg|].
        exists (pre ++ [p; q]). rewrite <- app_assoc. exact Hg.
      + intros n Hn1. rewrite Hn in Hn1. apply in_app_iff in Hn1. destruct Hn1 as [Hn1|[<-|[]]]; [exact (Hall n Hn1)|].
        destruct Hty as [Hl|[(b & k & Hb & Hk & Ht & Hsp)|(Hp & Hno)]].
        * apply Hother. left. exact Hl.
        * split.
          { rewrite Ht. assert (K : k = 1%N \/ k = 2%N \/ k = 3%N) by lia. clear - Hb K. cbn [In] in Hb.
            destruct Hb as [<-|[<-|[<-|[<-|[]]]]]; destruct K as [-> |[-> | ->]]; vm_compute; intuition discriminate. }
          intros b' k' Hb' Hk' _ E. rewrite Ht in E. rewrite <- (variant_unique _ _ _ _ Hb Hk Hb' Hk' E). exact Hsp.
        * split; [exact Hno|]. intros b k Hb Hk H2 E. exfalso.
          destruct (parse_ok _ _ Hp) as [_ Hlow].
          assert (Hpin : In p (pg_nodes g)) by (rewrite Hg; apply in_app_iff; right; left; reflexivity).
          destruct (Hleg p Hpin) as (Hn1 & _). apply Hn1. rewrite <- Hlow, E.
          assert (K : k = 1%N \/ k = 2%N \/ k = 3%N) by lia. clear - Hb K H2. cbn [In] in Hb.
          destruct Hb as [<-|[<-|[<-|[<-|[]]]]]; destruct K as [-> |[-> | ->]];
            try (exfalso; destruct H2 as [H2|[H2|H2]]; [lia|discriminate|discriminate]); vm_compute; tauto.
    - destruct (new_state_form outer r g) as (N1 & _). split; [exists []; reflexivity|].
      intros n Hn. apply Hother. right. apply N1, Hn.
  Qed.

  Lemma fused_add s p q rest s' : convert_step tinfo lift s p (q :: rest) = Some (s', true) ->
    ~ In (lower (p_op q)) ["constant"; "matmul"; "add"] -> False.
  Proof.
    intros H Hq. unfold convert_step in H. destruct (convert_node_proto s p) as [n0|]; [|discriminate].
    destruct (mem_str _ _); [discriminate|].
    destruct (if String.eqb (ntype n0) "Constant" then extract_constant tinfo s n0 else (s, n0)) as [s1 n1].
    destruct (remap_node_type n1) as [n2|]; [|discriminate]. destruct (rename_node s1 n2) as [s3 n3].
    destruct (coalesce s3 n3 (q :: rest)) as [[n4 b']|] eqn:E4; [|discriminate].
    destruct (if String.eqb (ntype n4) (ntype n3) then (s3, n4) else rename_node s3 n4) as [s5 n5].
    destruct (lift_node lift s5 n5); [|discriminate]. assert (b' = true) by congruence. subst b'. clear H.
    unfold coalesce in E4. destruct (String.eqb (ntype n3) "Gemm").
    { destruct (convert_gemm_to_linear n3); [|discriminate]. cbn in E4. congruence. }
    destruct (String.eqb (ntype n3) "MatMul"); [|congruence]. unfold convert_matmul_to_linear in E4.
    destruct (ninputs n3) as [|? [|w [|]]]; try discriminate. destruct (negb _); [congruence|].
    destruct (aty w); try congruence. destruct (negb _); [congruence|].
    destruct (convert_node_proto s3 q) as [peek|] eqn:Ep; [|discriminate].
    destruct (noutputs (set_type n3 "Linear")) as [|x xs]; [destruct (_ && _)%bool; congruence|].
    destruct (is_add_with_bias s3 peek (aname x)) eqn:Ea; [|congruence].
    unfold is_add_with_bias in Ea. destruct (ninputs peek) as [|? [|? [|]]]; try discriminate.
    apply andb_true_iff in Ea. destruct Ea as [Ea _]. apply String.eqb_eq in Ea.
    unfold convert_node_proto in Ep. destruct (parse_type (p_op q)) as [qt|] eqn:Et; [|discriminate].
    destruct (all_some _); [|discriminate]. injection Ep as <-. cbn in Ea. subst qt. destruct (parse_ok _ _ Et) as [_ Hl].
    apply Hq. rewrite <- Hl. cbn. auto.
  Qed.

  Lemma keep_some_nth {A} : forall (l : list (option A)) i a, length (keep_some l) = length l -> nth_error l i = Some (Some a) ->
    nth_error (keep_some l) i = Some a.
  Proof.
    assert (Hle : forall l : list (option A), (length (keep_some l) <= length l)%nat).
    { induction l as [|[x|] l IH]; cbn; lia. }
    induction l as [|[x|] l IH]; intros i a Hl Hi; [destruct i; discriminate| |].
    - destruct i as [|i]; cbn in *; [congruence|]. apply IH; [lia|exact Hi].
    - cbn in Hl. specialize (Hle l). lia.
  Qed.

  (** Declared types of graph outputs. *)
  Lemma proto_output_fixed s s' x : fixed s s' -> proto_output s' x = proto_output s x.
  Proof. intros (F1 & F2 & F3 & F4 & F5). unfold proto_output. rewrite F2, F3. reflexivity. Qed.

  Definition plain_op (p : pnode) : Prop := ~ In (lower (p_op p)) ["constant"; "matmul"; "add"].

  Lemma unique_split g pre p post x : legal_graph g -> pg_nodes g = pre ++ post -> In p pre -> In x (p_out p) -> x <> "" ->
    ~ In x (produced post).
  Proof.
    intros legal Hg Hp Hx Hne Hin. pose proof (lg_unique g legal) as Hn. apply NoDup_app_r in Hn. rewrite Hg in Hn.
    unfold produced in Hn. rewrite flat_map_app, filter_app in Hn.
    assert (Hf : negb (String.eqb x "") = true) by (apply negb_true_iff, String.eqb_neq, Hne).
    apply (NoDup_app_disj _ _ x Hn); apply filter_In; (split; [|exact Hf]).
    - apply in_flat_map. exists p. auto.
    - exact Hin.
  Qed.

  Lemma declared_types outer r g ns ins outs store : legal_graph g -> NoDup (map fst (pg_out g)) ->
    length outs = length (pg_out g) ->
    import tinfo lift outer r g = Some (ns, ins, outs, store) ->
    forall i x t p, nth_error (pg_out g) i = Some (x, Some t) -> san x = x -> In p (pg_nodes g) -> In x (p_out p) -> plain_op p ->
    exists a, nth_error outs i = Some a /\ aty a = t.
  Proof.
    intros legal Hnd Hlen H i x t p Hi Hsx Hp Hx Hop.
    destruct (import_state _ _ _ _ _ _ _ H) as (s & Hc & -> & -> & l & Hl & Ho). clear H.
    assert (Hne : x <> "").
    { intros ->. apply (lg_nonempty g legal). apply in_app_iff. right. apply in_app_iff. right. apply in_map_iff.
      exists ("", Some t). split; [reflexivity|]. eapply nth_error_In, Hi. }
    pose (P := fun (l : list pnode) (s : gstate) => exists pre, pg_nodes g = pre ++ l /\ g_outputs s = map graph_output (pg_out g) /\
      forall p x, In p pre -> plain_op p -> In x (p_out p) -> x <> "" ->
        exists ij a, sget (g_outmap s) (san x) = Some ij /\ node_output s ij = Some a /\ aty a = aty (proto_output s x)).
    assert (HP : P [] s).
    { eapply (convert_ind P); [|reflexivity| |exact Hc].
      - intros s0 p0 rest s' b (pre & Hg & Houts & Hall) Hs.
        destruct (step_form _ _ _ _ _ Hs) as (F & n' & Hn & _ & _ & Hplain & Hmap).
        assert (Hold : forall p x, In p pre -> plain_op p -> In x (p_out p) -> x <> "" ->
          exists ij a, sget (g_outmap s') (san x) = Some ij /\ node_output s' ij = Some a /\ aty a = aty (proto_output s' x)).
        { intros p1 x1 Hp1 Hop1 Hx1 Hne1. destruct (Hall p1 x1 Hp1 Hop1 Hx1 Hne1) as (ij & a & A1 & A2 & A3).
          exists ij, a. rewrite (proto_output_fixed _ _ _ F). split; [|split; [|exact A3]].
          - destruct (Hmap (san x1)) as [Hm|((x2 & Hx2 & E2) & _)]; [congruence|]. exfalso.
            assert (Hin2 : In x2 (produced (p0 :: rest))).
            { cbn in Hx2 |- *. apply in_app_iff in Hx2. apply in_app_iff. destruct Hx2 as [Hx2|Hx2]; [left; exact Hx2|right].
              destruct b; cbn in Hx2; [|destruct Hx2]. destruct rest as [|q rest']; [destruct Hx2|]. cbn in Hx2 |- *. rewrite app_nil_r in Hx2.
              apply in_app_iff. left. exact Hx2. }
            assert (E : x2 = x1).
            { apply (lg_apart g legal); [| |exact E2]; unfold graph_names; rewrite !in_app_iff; right; right; left; unfold produced; rewrite Hg, flat_map_app;
                apply in_app_iff; [right; exact Hin2|left]. apply in_flat_map. exists p1. auto. }
            subst x2. exact (unique_split g pre p1 _ x1 legal Hg Hp1 Hx1 Hne1 Hin2).
          - unfold node_output in *. destruct (nth_error (g_nodes s0) (fst ij)) as [n|] eqn:En; [|discriminate].
            rewrite Hn, nth_error_app1, En; [exact A2|]. apply nth_error_Some. congruence. }
        assert (Hnew : forall x, plain_op p0 -> In x (p_out p0) ->
          exists ij a, sget (g_outmap s') (san x) = Some ij /\ node_output s' ij = Some a /\ aty a = aty (proto_output s' x)).
        { intros x1 Hop1 Hx1. assert (Nc : lower (p_op p0) <> "constant") by (intros E; apply Hop1; cbn; auto).
          assert (Nm : lower (p_op p0) <> "matmul") by (intros E; apply Hop1; cbn; auto).
          destruct (Hplain Nc Nm) as (_ & Hty & Hj). destruct (Hj x1 Hx1) as (j & x2 & Hj2 & E2 & Hsg).
          assert (E : x2 = x1).
          { apply (lg_apart g legal); [| |exact E2]; unfold graph_names; rewrite !in_app_iff; right; right; left; unfold produced; rewrite Hg, flat_map_app;
              apply in_app_iff; right; cbn; apply in_app_iff; left; [eapply nth_error_In, Hj2|exact Hx1]. }
          subst x2. assert (Hnt : nth_error (map aty (noutputs n')) j = Some (aty (proto_output s0 x1))).
          { rewrite Hty, nth_error_map, Hj2. reflexivity. }
          rewrite nth_error_map in Hnt. destruct (nth_error (noutputs n') j) as [a|] eqn:Ea; [|discriminate]. cbn in Hnt. injection Hnt as Hnt.
          exists (length (g_nodes s0), j), a. split; [exact Hsg|]. split; [|rewrite (proto_output_fixed _ _ _ F); exact Hnt].
          unfold node_output. cbn [fst snd]. rewrite Hn, nth_error_app2, Nat.sub_diag by lia. exact Ea. }
        assert (Hout' : g_outputs s' = map graph_output (pg_out g)) by (destruct F as (_ & F2 & _); congruence).
        destruct b.
        + destruct rest as [|q rest'].
          { exists (pre ++ [p0]). split; [rewrite <- app_assoc; exact Hg|]. split; [exact Hout'|]. intros p1 x1 Hp1 Hop1 Hx1 Hne1.
            apply in_app_iff in Hp1. destruct Hp1 as [Hp1|[<-|[]]]; [exact (Hold p1 x1 Hp1 Hop1 Hx1 Hne1)|exact (Hnew x1 Hop1 Hx1)]. }
          exists (pre ++ [p0; q]). split; [rewrite <- app_assoc; exact Hg|]. split; [exact Hout'|].
          intros p1 x1 Hp1 Hop1 Hx1 Hne1. apply in_app_iff in Hp1. destruct Hp1 as [Hp1|[<-|[<-|[]]]]; [exact (Hold p1 x1 Hp1 Hop1 Hx1 Hne1)|exact (Hnew x1 Hop1 Hx1)|].
          exfalso. exact (fused_add s0 p0 q rest' s' Hs Hop1).
        + exists (pre ++ [p0]). split; [rewrite <- app_assoc; exact Hg|]. split; [exact Hout'|]. intros p1 x1 Hp1 Hop1 Hx1 Hne1.
          apply in_app_iff in Hp1. destruct Hp1 as [Hp1|[<-|[]]]; [exact (Hold p1 x1 Hp1 Hop1 Hx1 Hne1)|exact (Hnew x1 Hop1 Hx1)].
      - destruct (new_state_form outer r g) as (_ & _ & N3). exists []. split; [reflexivity|]. split; [exact N3|]. intros ? ? []. }
    destruct HP as (pre & Hg & Houts & Hall). rewrite app_nil_r in Hg. rewrite Hg in Hp.
    destruct (Hall p x Hp Hop Hx Hne) as (ij & a & A1 & A2 & A3).
    assert (Hfo : find_output s (graph_output (x, Some t)) = Some (Some a)).
    { unfold find_output, graph_output. cbn [aname fst snd]. rewrite A1, A2. reflexivity. }
    assert (Hla : nth_error l i = Some (Some a)).
    { pose proof (all_some_spec _ _ Hl) as El.
      assert (Hn : nth_error (map Some l) i = Some (Some (Some a))).
      { rewrite <- El, Houts, map_map, nth_error_map, Hi. cbn [option_map]. rewrite Hfo. reflexivity. }
      rewrite nth_error_map in Hn. destruct (nth_error l i); [|discriminate]. cbn in Hn. injection Hn as ->. reflexivity. }
    exists a. split.
    - assert (Hll : length l = length (pg_out g)).
      { pose proof (f_equal (@length _) (all_some_spec _ _ Hl)) as E. rewrite !map_length, Houts, map_length in E. congruence. }
      rewrite Ho. apply keep_some_nth; [congruence|exact Hla].
    - rewrite A3. unfold proto_output. rewrite Houts.
      assert (Hfind : find (fun o => String.eqb (aname o) x) (map graph_output (pg_out g)) = Some (graph_output (x, Some t))).
      { assert (Hap : forall y, In y (pg_out g) -> san (fst y) = x -> fst y = x).
        { intros y Hy E. apply (lg_apart g legal); [| |congruence]; unfold graph_names; rewrite !in_app_iff; do 4 right; [apply in_map, Hy|].
          apply in_map_iff. exists (x, Some t). split; [reflexivity|eapply nth_error_In, Hi]. }
        clear - Hap Hnd Hi Hsx. revert i Hi. induction (pg_out g) as [|[y d] l0 IH]; intros i Hi; [destruct i; discriminate|].
        cbn [map find]. assert (Hnm : aname (graph_output (y, d)) = san y) by (unfold graph_output; destruct d; reflexivity).
        rewrite Hnm. destruct (String.eqb_spec (san y) x) as [E|N].
        - assert (Ey : y = x) by (apply (Hap (y, d)); [left; reflexivity|exact E]). subst y. destruct i as [|i]; [cbn in Hi; congruence|].
          exfalso. cbn in Hnd. apply NoDup_cons_iff in Hnd. apply (proj1 Hnd). apply in_map_iff. exists (x, Some t). split; [reflexivity|].
          eapply nth_error_In, Hi.
        - destruct i as [|i]; [cbn in Hi; congruence|]. cbn in Hnd, Hi. apply NoDup_cons_iff in Hnd.
          apply (IH (proj2 Hnd) (fun y0 Hy0 => Hap y0 (or_intror Hy0)) i Hi). }
      rewrite Hfind. reflexivity.
  Qed.
End Form.
