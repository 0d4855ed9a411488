(** Lemmas about the code emitted for operators on device tensors: one node, and
    the program. *)
From Coq Require Import Lia ZifyBool ZifyNat ZifyN.
From Verif Require Infer_Proofs.
From Verif Require Import Tensor_Proofs Fold_Proofs BinOps_Proofs ShapeOps_Proofs AxisOps_Proofs RankOps_Proofs Permute_Proofs ShapeRun_Proofs Index_Proofs.
From Verif Require Import TensorRun_Spec TensorRun_Model TensorRun_Proofs.
Import Tensor_Spec BinOps_Spec RankOps_Spec ShapeRun_Spec Permute_Spec.
Local Open Scope N_scope.

Lemma binary_name n op : binary_node n = Some op -> In (ntype n)
  ["Add"; "Sub"; "Mul"; "Div"; "Mod"; "Equal"; "Greater"; "GreaterOrEqual"; "Less"; "LessOrEqual"; "And"; "Or"; "Xor"; "Max"; "Min";
   "BitwiseAnd"; "BitwiseOr"; "BitwiseXor"; "BitShift"]%string.
Proof.
  unfold binary_node. intros H.
  repeat match type of H with (if String.eqb ?a ?b then _ else _) = _ => destruct (String.eqb_spec a b) as [E|]; [rewrite E; cbn; tauto|] end.
  discriminate H.
Qed.
Lemma gets_in {A} (P : A -> Prop) (x : tensor A) idx v : Forall P (tdata x) -> get x idx = Some v -> P v.
Proof. intros F H. rewrite Forall_forall in F. apply F. exact (get_In _ _ _ H). Qed.

Section Node.
  Variable value : arg -> option cval.
  Variable opset : N.
  Variable n : rnode.
  Variable e : renv.
  Notation given := (given value e).
  Notation known := (fun a => constant_of value a <> None).
  Definition any_ok (outs : list otensor) : Prop :=
    exists s vs, gen_any value opset n = Some s /\ texec e s = Some vs /\ all_stand (noutputs n) vs outs.
  Notation infers := (infer_any value opset n = IOk (map aty (noutputs n))).

  Ltac other := match goal with
    | A : ntype ?n = _, B : ntype ?n = _ |- _ => rewrite A in B; discriminate B
    | A : ntype ?n = ?s, B : binary_node ?n = Some _ |- _ =>
        apply binary_name in B; rewrite A in B; cbn in B; repeat (destruct B as [B|B]; [discriminate B|]); destruct B
    end.
  Ltac steps O := inversion O; subst; try other;
    try match goal with H : onnx_node _ _ _ |- _ => inversion H; subst; try other; clear H end;
    try match goal with H : onnx_index_node _ _ _ |- _ => inversion H; subst; try other; clear H end.

  Lemma single o s v out : noutputs n = [o] -> gen_any value opset n = Some s -> texec e s = Some [v] ->
    stands_for (fst out) (aty o) v (snd out) -> any_ok [out].
  Proof. intros Ho Hs He Hv. exists s, [v]. rewrite Ho. cbn. auto. Qed.
  Lemma one_type_ok r : one_type r = IOk (map aty (noutputs n)) -> exists o, noutputs n = [o] /\ r = IOk (aty o).
  Proof.
    unfold one_type. destruct r as [ty| |]; cbn; try discriminate. intros H. injection H as H.
    destruct (noutputs n) as [|o [|? ?]]; try discriminate H. injection H as ->. eauto.
  Qed.
  Lemma tensor_in a r d x : is_tensor a r -> given a (d, x) -> exists t, aty a = TensorT t /\ e (aname a) = Some (RTensor x) /\
    tens e (aname a) = Some x /\ tt_dtype t = d /\ tt_rank t = N.of_nat (length (tshape x)) /\ length (tshape x) = r /\
    twf x /\ Forall (in_dtype d) (tdata x) /\ tt_rank t <> 0 /\ (Z.of_N (tt_rank t) <= i64_max)%Z.
  Proof.
    intros (Ra & Hm & t & Ta & Hr) (_ & (W & F) & G). destruct (G Ra) as (v & E & S). rewrite Ta in S. cbn [fst snd] in *.
    destruct (tensor_value _ _ _ _ S) as (-> & Hd & Hl). destruct S as (_ & _ & _ & _ & _ & H0).
    exists t. unfold tens. rewrite E. repeat split; try assumption; lia.
  Qed.

  Ltac enter T K := unfold infer_any in T; rewrite K in T; cbn [String.eqb Ascii.eqb Bool.eqb orb] in T.
  Ltac emit K I Ho := unfold gen_any; rewrite I, Ho, K; cbn [String.eqb Ascii.eqb Bool.eqb orb].
  Ltac run Et := cbn [texec]; rewrite Et; cbn [obind].

  Lemma any_transpose a d x outs : ntype n = "Transpose"%string -> ninputs n = [a] -> is_tensor a (length (tshape x)) ->
    given a (d, x) -> onnx_any_node n [(d, x)] outs -> infers -> any_ok outs.
  Proof.
    intros K I Ht G O T. destruct (tensor_in _ _ _ _ Ht G) as (t & Ta & _ & Et & Hd & Hr & _ & W & F & H0 & _).
    enter T K. apply one_type_ok in T. destruct T as (o & Ho & T).
    assert (exists p z, (get_attr n "perm" = Some (AInts p) \/ (get_attr n "perm" = None /\ p = rev (map Z.of_nat (seq 0 (length (tshape x)))))) /\
      Forall (fun i => 0 <= i)%Z p /\ transposed (positions p) x z /\ outs = [(d, z)]) as (p & z & Hp & Fp & Tz & ->).
    { steps O. eauto 10. }
    assert (Hperm : transpose_perm n = IOk p).
    { unfold transpose_perm, first_input. rewrite I. cbn [ibind]. rewrite Ta. destruct Hp as [-> | [-> ->]]; [reflexivity|]. rewrite Hr, Nat2N.id. reflexivity. }
    unfold infer_transpose in T. rewrite Hperm in T. cbn [iexpect ibind] in T. unfold first_input in T. rewrite I in T. cbn [ibind] in T. rewrite Ta in T.
    destruct (negb _); [discriminate T|].
    assert (exists s, aty o = TensorT (mkTT d (tt_rank t) s)) as [s Ho'].
    { rewrite <- Hd. destruct (tt_shape t) as [l|]; [destruct (ShapeOps_Model.pick l p); [|discriminate T]|]; injection T as <-; eauto. }
    eapply single; [exact Ho|emit K I Ho; unfold gen_transpose; rewrite Hperm; reflexivity|run Et; rewrite (b_permute_ok p x z Fp W Tz); reflexivity|].
    cbn [fst snd]. rewrite Ho'. destruct Tz as (P & Wz & Sz & Gz).
    apply stands_tensor; [exact Wz| |rewrite Sz, Hr; unfold Permute_Spec.pick; rewrite map_length, (Permutation_length P), seq_length; reflexivity|exact H0].
    assert (Hz : b_permute p x = Some z) by (apply b_permute_ok; [exact Fp|exact W|repeat split; assumption]).
    unfold b_permute in Hz. destruct (_ && _) in Hz; [|discriminate Hz]. eapply tab_elems; [exact Hz|]. cbn beta. intros idx v. apply gets_in, F.
  Qed.

  Lemma any_flatten a d x axis outs : ntype n = "Flatten"%string -> ninputs n = [a] -> is_tensor a (length (tshape x)) ->
    int_attr n "axis" 1%Z = Some axis -> (axis <> 0)%Z -> (axis <> - Z.of_nat (length (tshape x)))%Z ->
    prodN (tshape x) <> 0 -> (Z.of_N (prodN (tshape x)) <= i32_max)%Z ->
    given a (d, x) -> onnx_any_node n [(d, x)] outs -> infers -> any_ok outs.
  Proof.
    intros K I Ht Hax N1 N2 Hne Hb G O T. destruct (tensor_in _ _ _ _ Ht G) as (t & Ta & _ & Et & Hd & Hr & _ & W & F & H0 & Hm).
    unfold i64_max in Hm. unfold i32_max in Hb.
    enter T K. apply one_type_ok in T. destruct T as (o & Ho & T).
    assert (exists s, flatten_of axis (tshape x) s /\ outs = [(d, mkT s (tdata x))]) as (s & Hs & ->).
    { steps O. match goal with H : int_attr n _ _ = Some ?b |- _ => assert (b = axis) as -> by congruence end. eauto. }
    unfold infer_flatten, first_input in T. rewrite I in T. cbn [ibind] in T. rewrite Ta in T. destruct (N.ltb _ _); [discriminate T|].
    destruct (flatten_axis n) as [ax| |] eqn:Ef; cbn [iexpect ibind] in T; try discriminate T.
    assert (Hv : ax = if (axis <? 0)%Z then (axis + Z.of_nat (length (tshape x)))%Z else axis).
    { unfold flatten_axis, first_input in Ef. rewrite I in Ef. cbn [ibind] in Ef. rewrite Ta in Ef. destruct (forallb _ _); [|discriminate Ef].
      rewrite (int_attr_or _ _ _ _ Hax) in Ef. cbn [ibind] in Ef. rewrite Hr, nat_N_Z in Ef. congruence. }
    assert (exists l, aty o = TensorT (mkTT d 2 (Some l))) as [l Ho'].
    { rewrite <- Hd. destruct (tt_shape t) as [l|]; [destruct (N.leb _ _); [|discriminate T]|]; injection T as <-; eauto. }
    destruct Hs as [Hrange Hs]. rewrite <- Hv in Hs. cbv zeta in Hs.
    assert (Hax2 : (0 < ax <= Z.of_nat (length (tshape x)))%Z) by (rewrite Hv; destruct (Z.ltb_spec axis 0); lia).
    assert (Hu : to_usize ax = N.of_nat (Z.to_nat ax)) by (pose proof (to_usize_small ax ltac:(lia)); lia).
    eapply single; [exact Ho|emit K I Ho; unfold gen_flatten; rewrite Ef; replace (to_usize ax =? 0) with false by lia; reflexivity| |].
    - run Et. rewrite (flatten_code_ok (to_usize ax) x W Hne Hb) by lia. rewrite Hu, Nat2N.id, <- Hs. reflexivity.
    - cbn [fst snd]. rewrite Ho'. apply stands_tensor; [|exact F|rewrite Hs; reflexivity|discriminate].
      unfold twf. cbn [tdata tshape]. rewrite Hs. pose proof (prod_split (s := tshape x) (Z.to_nat ax)) as Hp. unfold twf in W. rewrite W, <- Hp. cbn. lia.
  Qed.

  Lemma known_value b y l : known b -> given b (I64, y) -> as_ints y = Some l ->
    exists v, value b = Some v /\ cv_ints v = Some l /\ cv_i64s v = Some l /\ cv_shape v = tshape y /\
      Forall (fun z => -9223372036854775808 <= z <= 9223372036854775807)%Z l.
  Proof.
    intros Kb (C1 & (_ & F) & _) Al. unfold constant_of in *. destruct (value b) as [v|]; [|elim Kb; reflexivity].
    destruct (cv_ints v) as [l'|] eqn:Cv; [|elim Kb; reflexivity]. pose proof (C1 _ eq_refl) as E. injection E as E1 E2.
    cbn [fst snd] in *. rewrite E2 in Al, F. rewrite as_ints_map in Al. injection Al as ->. exists v. split; [reflexivity|]. split; [exact Cv|].
    split; [unfold cv_i64s; rewrite <- E1, Cv; reflexivity|]. split; [rewrite E2; reflexivity|].
    cbn [tdata] in F. rewrite Forall_map in F. eapply Forall_impl; [|exact F]. cbn. intros z (lo & hi & Hr & R). injection Hr as <- <-. exact R.
  Qed.

  Lemma any_expand a b d x req l outs : ntype n = "Expand"%string -> ninputs n = [a; b] -> is_tensor a (length (tshape x)) ->
    known b \/ (run_time b /\ exists k, aty b = ShapeT k) -> as_ints req = Some l -> (length (tshape x) <= length l)%nat ->
    prodN (tshape x) <> 0 -> given a (d, x) -> given b (I64, req) -> onnx_any_node n [(d, x); (I64, req)] outs -> infers -> any_ok outs.
  Proof.
    intros K I Ht Hb Al Hl Hne G Gb O T. destruct (tensor_in _ _ _ _ Ht G) as (t & Ta & _ & Et & Hd & Hr & _ & W & F & H0 & Hm).
    enter T K. apply one_type_ok in T. destruct T as (o & Ho & T).
    assert (exists z, onnx_expand l x = Some z /\ outs = [(d, z)]) as (z & Hz & ->).
    { steps O. assert (l0 = l) as -> by congruence. eauto. }
    assert (Hfin : forall q s, gen_expand value n a b o = Some (UExpand (aname a) q (tt_rank t) (N.of_nat (length l))) ->
      match q with QLiteral l => Some l | QVar s => arr e s end = Some l -> aty o = TensorT (mkTT d (N.of_nat (length l)) s) -> any_ok [(d, z)]).
    { intros q s Hg Hq Ho'. eapply single; [exact Ho|emit K I Ho; exact Hg|run Et; rewrite Hq; cbn [obind]; rewrite Hr, (expand_code_ok l x z Hl Hne Hz); reflexivity|].
      cbn [fst snd]. rewrite Ho'. unfold onnx_expand in Hz. destruct (forallb _ _); [|discriminate Hz].
      destruct (bshape _ _) as [sz|] eqn:Eb; [|discriminate Hz]. destruct (tab_wf _ _ _ Hz) as [Wz Sz].
      apply stands_tensor; [exact Wz|eapply tab_elems; [exact Hz|]; cbn beta; intros idx v; apply gets_in, F| |lia].
      rewrite Sz, (bshape_length _ _ _ Eb), map_length. lia. }
    unfold infer_expand in T. rewrite I in T. destruct (match aty b with TensorT _ => _ | _ => _ end) in T; [discriminate T|].
    destruct (value b) as [v|] eqn:Ev.
    - assert (Kb : known b \/ constant_of value b = None) by (unfold constant_of; rewrite Ev; destruct (cv_ints v); [left; discriminate|right; reflexivity]).
      destruct Kb as [Kb|Kb].
      + destruct (known_value b req l Kb Gb Al) as (v' & Ev' & Cv & _ & _ & _). rewrite Ev in Ev'. injection Ev' as <-.
        rewrite Cv in T. cbn [ibind] in T. rewrite Ta in T. injection T as T. rewrite Hd in T.
        eapply (Hfin (QLiteral l)); [|reflexivity|symmetry; exact T].
        unfold gen_expand. rewrite Ta, <- T, Ev, Cv. reflexivity.
      + unfold constant_of in Kb. rewrite Ev in Kb. destruct (cv_ints v); [discriminate Kb|discriminate T].
    - destruct Hb as [Kb|(Rb & k & Tb)]; [unfold constant_of in Kb; rewrite Ev in Kb; elim Kb; reflexivity|].
      cbn [ibind] in T. rewrite Ta, Tb in T. cbn [ibind] in T. injection T as T. rewrite Hd in T.
      destruct Gb as (_ & _ & Gb). destruct (Gb Rb) as (w & Ew & Sw). rewrite Tb in Sw. cbn [fst snd] in Sw.
      destruct (array_value _ _ _ _ Sw) as (li & -> & Hk & [(_ & Hq) | (Hq & _)]); [|discriminate Hq].
      rewrite Hq, as_ints_map in Al. injection Al as ->. rewrite <- Hk in T.
      eapply (Hfin (QVar (aname b))); [|unfold arr; rewrite Ew; reflexivity|symmetry; exact T].
      unfold gen_expand. rewrite Ta, <- T, Ev, Tb. reflexivity.
  Qed.

  Lemma any_tile a b d x reps l outs : ntype n = "Tile"%string -> ninputs n = [a; b] -> is_tensor a (length (tshape x)) -> known b ->
    as_ints reps = Some l -> Forall (fun v => 0 < v)%Z l -> given a (d, x) -> given b (I64, reps) ->
    onnx_any_node n [(d, x); (I64, reps)] outs -> infers -> any_ok outs.
  Proof.
    intros K I Ht Kb Al Fl G Gb O T. destruct (tensor_in _ _ _ _ Ht G) as (t & Ta & _ & Et & Hd & Hr & _ & W & F & H0 & Hm).
    enter T K. apply one_type_ok in T. destruct T as (o & Ho & T).
    assert (exists z, onnx_tile l x = Some z /\ outs = [(d, z)]) as (z & Hz & ->).
    { steps O. assert (l0 = l) as -> by congruence. eauto. }
    destruct (known_value b reps l Kb Gb Al) as (v & Ev & _ & Cv & _ & Rl).
    unfold infer_same, first_input in T. rewrite I in T. cbn [ibind] in T. rewrite Ta in T. injection T as T.
    eapply single; [exact Ho|emit K I Ho; unfold gen_tile; rewrite I, Ev, Cv; reflexivity|run Et; rewrite (b_repeat_ok l x z); [reflexivity| |exact Hz]|].
    - rewrite Forall_forall in *. intros w Hw. specialize (Fl w Hw). specialize (Rl w Hw). lia.
    - cbn [fst snd]. rewrite <- T. destruct t as [d' r s]. cbn [tt_dtype tt_rank] in *. subst d'.
      unfold onnx_tile in Hz. destruct (_ && _) eqn:Ec; [|discriminate Hz]. destruct (tab_wf _ _ _ Hz) as [Wz Sz].
      apply stands_tensor; [exact Wz|eapply tab_elems; [exact Hz|]; cbn beta; intros idx u; apply gets_in, F| |exact H0].
      rewrite Sz, map_length, combine_length, Hr. lia.
  Qed.

  Lemma blocks_type attrs bl ok t a o : ninputs n = [a] -> aty a = TensorT t -> infer_blocks attrs bl ok n = IOk (aty o) ->
    exists bs s, block_size n = IOk bs /\ aty o = TensorT (mkTT (tt_dtype t) (tt_rank t) s).
  Proof.
    intros I Ta T. unfold infer_blocks in T. destruct (only_attrs _ _); [|discriminate T]. destruct (block_size n) as [bs| |] eqn:Eb; cbn [ibind] in T; try discriminate T.
    destruct ok; cbn [ibind] in T; try discriminate T. unfold first_input in T. rewrite I in T. cbn [ibind] in T. destruct (_ || _); [discriminate T|].
    rewrite Ta in T. destruct (negb _); [discriminate T|]. exists bs.
    destruct (tt_shape t) as [l|]; [destruct (bl bs l); [|discriminate T]|]; injection T as <-; eauto.
  Qed.
  Lemma block_size_ok bs bs' : get_attr n "blocksize" = Some (AInt (Z.of_N bs)) -> (Z.of_N bs <= 9223372036854775807)%Z -> block_size n = IOk bs' -> bs' = bs.
  Proof. intros H Hb. unfold block_size. rewrite H. intros E. injection E as <-. pose proof (to_usize_small (Z.of_N bs) ltac:(lia)). lia. Qed.
  Lemma tensor_out t d z o : aty o = TensorT t -> tt_dtype t = d -> twf z -> Forall (in_dtype d) (tdata z) ->
    N.of_nat (length (tshape z)) = tt_rank t -> tt_rank t <> 0 -> stands_for d (aty o) (RTensor z) z.
  Proof. intros -> <- W F L H0. destruct t. apply stands_tensor; assumption. Qed.

  Lemma any_depth a d x outs : ntype n = "DepthToSpace"%string -> ninputs n = [a] -> is_tensor a 4 ->
    (forall b, get_attr n "blocksize" = Some (AInt b) -> b <= i64_max)%Z ->
    given a (d, x) -> onnx_any_node n [(d, x)] outs -> infers -> any_ok outs.
  Proof.
    intros K I Ht Hb G O T. destruct (tensor_in _ _ _ _ Ht G) as (t & Ta & _ & Et & Hd & Hr & _ & W & F & H0 & Hm).
    enter T K. apply one_type_ok in T. destruct T as (o & Ho & T).
    assert (exists crd bs z, crd_mode n = Some crd /\ get_attr n "blocksize" = Some (AInt (Z.of_N bs)) /\ onnx_depth_to_space crd bs x = Some z /\ outs = [(d, z)])
      as (crd & bs & z & Hc & Hbs & Hz & ->). { steps O. eauto 10. }
    destruct (blocks_type _ _ _ _ _ _ I Ta T) as (bs' & s & Eb & Ho'). pose proof (block_size_ok _ _ Hbs (Hb _ Hbs) Eb) as ->.
    assert (Em : depth_mode n = IOk crd).
    { unfold crd_mode in Hc. unfold depth_mode. destruct (get_attr n "mode") as [[]|]; try discriminate Hc; [|injection Hc as <-; reflexivity].
      destruct (String.eqb _ _); [injection Hc as <-; reflexivity|]. destruct (String.eqb _ _); [injection Hc as <-; reflexivity|discriminate Hc]. }
    eapply single; [exact Ho|emit K I Ho; unfold gen_depth; rewrite Eb, Em; reflexivity|run Et; rewrite (depth_code_ok _ _ _ _ W Hz); reflexivity|].
    cbn [fst snd]. unfold onnx_depth_to_space in Hz. destruct (tshape x) as [|b0 [|c0 [|h0 [|w0 [|? ?]]]]] eqn:Ex; try discriminate Hz. destruct (_ && _); [|discriminate Hz]. cbv zeta in Hz.
    destruct (tab_wf _ _ _ Hz) as [Wz Sz]. eapply tensor_out; [exact Ho'|exact Hd|exact Wz| |cbn [tt_rank]; rewrite Sz, Hr; reflexivity|exact H0].
    eapply tab_elems; [exact Hz|]. cbn beta. intros idx v. destruct idx as [|? [|? [|? [|? [|? ?]]]]]; try discriminate. apply gets_in, F.
  Qed.
  Lemma any_space a d x outs : ntype n = "SpaceToDepth"%string -> ninputs n = [a] -> is_tensor a 4 ->
    (forall b, get_attr n "blocksize" = Some (AInt b) -> b <= i64_max)%Z ->
    given a (d, x) -> onnx_any_node n [(d, x)] outs -> infers -> any_ok outs.
  Proof.
    intros K I Ht Hb G O T. destruct (tensor_in _ _ _ _ Ht G) as (t & Ta & _ & Et & Hd & Hr & _ & W & F & H0 & Hm).
    enter T K. apply one_type_ok in T. destruct T as (o & Ho & T).
    assert (exists bs z, get_attr n "blocksize" = Some (AInt (Z.of_N bs)) /\ onnx_space_to_depth bs x = Some z /\ outs = [(d, z)])
      as (bs & z & Hbs & Hz & ->). { steps O. eauto 10. }
    destruct (blocks_type _ _ _ _ _ _ I Ta T) as (bs' & s & Eb & Ho'). pose proof (block_size_ok _ _ Hbs (Hb _ Hbs) Eb) as ->.
    eapply single; [exact Ho|emit K I Ho; unfold gen_space; rewrite Eb; reflexivity|run Et; rewrite (space_code_ok _ _ _ W Hz); reflexivity|].
    cbn [fst snd]. unfold onnx_space_to_depth in Hz. destruct (tshape x) as [|b0 [|c0 [|h0 [|w0 [|? ?]]]]] eqn:Ex; try discriminate Hz. destruct (_ && _); [|discriminate Hz].
    destruct (tab_wf _ _ _ Hz) as [Wz Sz]. eapply tensor_out; [exact Ho'|exact Hd|exact Wz| |cbn [tt_rank]; rewrite Sz, Hr; reflexivity|exact H0].
    eapply tab_elems; [exact Hz|]. cbn beta. intros idx v. destruct idx as [|? [|? [|? [|? [|? ?]]]]]; try discriminate. cbv zeta. apply gets_in, F.
  Qed.

  Lemma norm_position r a : (Z.of_nat r <= i64_max)%Z -> axis_ok r a = true ->
    to_usize (if (a <? 0)%Z then (a + Z.of_nat r)%Z else a) = N.of_nat (position r a) /\ (position r a < r)%nat.
  Proof.
    intros Hm Ha. unfold axis_ok in Ha. assert (Hr : (- Z.of_nat r <= a < Z.of_nat r)%Z) by lia.
    destruct (dim_of_position r a Hr) as [E L]. unfold dim_of in E. rewrite E. unfold i64_max in Hm. pose proof (to_usize_small (Z.of_nat (position r a)) ltac:(lia)). split; [lia|exact L].
  Qed.

  Lemma any_cumsum a b d x ax axis outs : ntype n = "CumSum"%string -> ninputs n = [a; b] -> is_tensor a (length (tshape x)) -> known b ->
    ax = mkT [] [EI axis] -> (forall ex re, exists z, onnx_cumsum d axis ex re x = Some z) ->
    given a (d, x) -> given b (I64, ax) -> onnx_any_node n [(d, x); (I64, ax)] outs -> infers -> any_ok outs.
  Proof.
    intros K I Ht Kb Eax Hall G Gb O T. destruct (tensor_in _ _ _ _ Ht G) as (t & Ta & _ & Et & Hd & Hr & _ & W & F & H0 & Hm).
    enter T K. apply one_type_ok in T. destruct T as (o & Ho & T).
    assert (exists ex re z, flag n "exclusive" = Some ex /\ flag n "reverse" = Some re /\ onnx_cumsum d axis ex re x = Some z /\ outs = [(d, z)])
      as (ex & re & z & He & Hre & Hz & ->). { steps O. match goal with H : mkT [] [EI _] = mkT [] [EI _] |- _ => injection H as -> end. eauto 10. }
    destruct (known_value b ax [axis] Kb Gb) as (v & Ev & Cv & _ & _ & _); [rewrite Eax; reflexivity|].
    assert (Hok : axis_ok (length (tshape x)) axis = true) by (unfold onnx_cumsum in Hz; destruct (axis_ok _ _); [reflexivity|discriminate Hz]).
    destruct (norm_position (length (tshape x)) axis) as [Hp Hlt]; [lia|exact Hok|].
    assert (Ec : cumsum_axis value n = IOk (Some (N.of_nat (position (length (tshape x)) axis)))).
    { unfold cumsum_axis. rewrite I, Ev, Cv, Ta, Hr, nat_N_Z, (Z.add_comm _ axis), Hp. cbv zeta. replace (_ <=? _) with false by lia. reflexivity. }
    assert (Hf : forall k f, flag n k = Some f -> attr_flag n k = IOk f).
    { intros k f. unfold flag, int_attr, attr_flag. destruct (get_attr n k) as [[]|]; cbn; intros E; try discriminate E; injection E as <-; reflexivity. }
    unfold infer_same, first_input in T. rewrite I in T. cbn [ibind] in T. rewrite Ta in T. injection T as T.
    eapply single; [exact Ho|emit K I Ho; unfold gen_cumsum; rewrite Ec, (Hf _ _ He), (Hf _ _ Hre), Ta; cbn [input_dtype]; rewrite Hd; reflexivity|run Et|].
    - erewrite cumsum_code_ok; [reflexivity|exact W|exact Hok|exact Hall|exact Hz].
    - cbn [fst snd]. eapply tensor_out; [symmetry; exact T|exact Hd| | | |exact H0];
      unfold onnx_cumsum in Hz; rewrite Hok in Hz; destruct (tab_wf _ _ _ Hz) as [Wz Sz]; [exact Wz| |rewrite Sz; symmetry; exact Hr].
      eapply tab_elems; [exact Hz|]. cbn beta. intros idx v0. destruct (along _ _ _ _); [|discriminate]. destruct (BinOps_Spec.fits _ _) eqn:Ef; [|discriminate].
      intros E. injection E as <-. apply in_dtype_int, Ef.
  Qed.
  Ltac kindof K k := rewrite (kind_other _ _ k K) by (cbn; tauto).
  Ltac enter2 T K k := enter T K; unfold infer_node in T; rewrite (kind_other _ _ k K) in T by (cbn; tauto).
  Ltac emit2 K I Ho k := emit K I Ho; rewrite (kind_other _ _ k K) by (cbn; tauto).

  Lemma static_shape_ok a b y l : ninputs n = [a; b] -> known b -> given b (I64, y) -> as_ints y = Some l -> get_static_shape value n = IOk (Some l).
  Proof. intros I Kb Gb Al. destruct (known_value b y l Kb Gb Al) as (v & Ev & Cv & _). unfold get_static_shape. rewrite I, Ev, Cv. reflexivity. Qed.

  Lemma any_reshape a b d x req l outs : ntype n = "Reshape"%string -> ninputs n = [a; b] -> is_tensor a (length (tshape x)) ->
    known b -> as_ints req = Some l -> int_attr n "allowzero" 0%Z = Some 0%Z ->
    prodN (tshape x) <> 0 -> (forall v, In v l -> (-1 <= v)%Z) -> (l = [] -> In d [F32; F64; I32; I64; BoolT]) ->
    given a (d, x) -> given b (I64, req) -> onnx_any_node n [(d, x); (I64, req)] outs -> infers -> any_ok outs.
  Proof.
    intros K I Ht Kb Al Haz Hne Hl Hd0 G Gb O T. destruct (tensor_in _ _ _ _ Ht G) as (t & Ta & _ & Et & Hd & Hr & _ & W & F & H0 & Hm).
    enter2 T K KReshape. apply one_type_ok in T. destruct T as (o & Ho & T).
    assert (exists s, reshape_of false (tshape x) l s /\ outs = [(d, mkT s (tdata x))]) as (s & Hs & ->).
    { steps O. assert (l0 = l) as -> by congruence. assert (az = 0%Z) as -> by congruence. eauto. }
    pose proof (static_shape_ok a b req l I Kb Gb Al) as GS.
    pose proof (b_reshape_to_ok l s x W Hne Hl Hs) as Hrun.
    assert (Wz : twf (mkT s (tdata x))) by (unfold twf in *; cbn [tdata tshape]; destruct Hs as (_ & -> & _); exact W).
    unfold infer_reshape in T. destruct (negb _); [discriminate T|]. rewrite GS in T. cbn [ibind] in T.
    rewrite (int_attr_or _ _ _ _ Haz) in T. cbn [ibind] in T. destruct (negb _); [discriminate T|].
    unfold first_input, first_output in T. rewrite I, Ho in T. cbn [ibind reshape_rank] in T. injection T as T. rewrite Ta in T.
    destruct Hs as (Ls & Ps & _).
    destruct l as [|v l].
    - cbn in T. rewrite Hd in T. destruct s; [|discriminate Ls].
      assert (exists w, tdata x = [w]) as [w Hw]. { unfold twf in W. rewrite <- Ps in W. cbn in W. destruct (tdata x) as [|w [|? ?]]; try discriminate W. eauto. }
      eapply single; [exact Ho|emit2 K I Ho KReshape; rewrite Ta; unfold gen_reshape_tensor; rewrite GS, <- T| |].
      + replace (existsb (dtype_beq d) [F32; F64; I32; I64; BoolT]) with true; [reflexivity|]. symmetry. apply existsb_exists. exists d.
        split; [apply Hd0; reflexivity|]. destruct d; reflexivity.
      + run Et. rewrite Hw. reflexivity.
      + cbn [fst snd]. rewrite <- T. rewrite Hw in *. split; [exact Wz|]. split; [exact F|]. split; reflexivity.
    - unfold reshape_output_type in T. replace (N.of_nat (length (v :: l)) =? 0) with false in T by (cbn [length]; lia).
      assert (exists s', aty o = TensorT (mkTT (tt_dtype t) (N.of_nat (length (v :: l))) s')) as [s' Ho'] by eauto.
      eapply single; [exact Ho|emit2 K I Ho KReshape; rewrite Ta; unfold gen_reshape_tensor; rewrite GS, Ho'; reflexivity|run Et; rewrite Hrun; reflexivity|].
      cbn [fst snd]. eapply tensor_out; [exact Ho'|exact Hd|exact Wz|exact F|cbn [tshape tt_rank]; rewrite Ls; reflexivity|cbn [tt_rank length]; lia].
  Qed.

  Lemma axes_known a rest x xs l : ninputs n = a :: rest -> Forall known rest -> Forall2 given rest xs -> axes_of n (x :: xs) = Some (Some l) ->
    (get_attr n "axes" = Some (AInts l) /\ rest = []) \/
    (get_attr n "axes" = None /\ exists b y v, rest = [b] /\ xs = [y] /\ value b = Some v /\ cv_ints v = Some l /\ cv_shape v = tshape (snd y)).
  Proof.
    intros I Kn G H. unfold axes_of in H. destruct (get_attr n "axes") as [[]|]; destruct xs as [|y [|? ?]]; try discriminate H.
    - injection H as ->. left. split; [reflexivity|]. inversion G. reflexivity.
    - right. split; [reflexivity|]. inversion G as [|b ? rest' ? Gb Gr]; subst. inversion Gr; subst. inversion Kn as [|? ? Kb _]; subst.
      destruct (as_ints (snd y)) as [l'|] eqn:Ey; [|discriminate H]. injection H as ->.
      destruct (known_ints value e _ _ Kb Gb) as (v & l2 & Ev & Cv & A & _). rewrite A in Ey. injection Ey as ->.
      exists b, y, v. split; [reflexivity|]. split; [reflexivity|]. split; [exact Ev|]. split; [exact Cv|].
      destruct Gb as (C1 & _). unfold constant_of in C1. rewrite Ev, Cv in C1. rewrite (C1 _ eq_refl). reflexivity.
  Qed.

  Lemma squeeze_axes_ok a rest x xs l ax : ninputs n = a :: rest -> Forall known rest -> Forall2 given rest xs -> axes_of n (x :: xs) = Some (Some l) -> l <> [] ->
    squeeze_axes value opset n = IOk ax -> ax = Some l.
  Proof.
    intros I Kn G H Hne. unfold squeeze_axes. destruct (axes_known a rest x xs l I Kn G H) as [[-> _]|(-> & b & y & v & -> & _ & Ev & Cv & _)].
    - destruct (13 <=? opset); [discriminate|]. cbn. destruct l; [contradiction|]. intros E. injection E as <-. reflexivity.
    - rewrite I, Ev, Cv. intros E. injection E as <-. reflexivity.
  Qed.
  Lemma unsqueeze_axes_ok a rest x xs l ax : ninputs n = a :: rest -> Forall known rest -> Forall2 given rest xs -> axes_of n (x :: xs) = Some (Some l) ->
    unsqueeze_axes value opset n = IOk ax -> ax = Some l.
  Proof.
    intros I Kn G H. unfold unsqueeze_axes. destruct (axes_known a rest x xs l I Kn G H) as [[-> _]|(-> & b & y & v & -> & _ & Ev & Cv & _)].
    - destruct (13 <=? opset); [discriminate|]. cbn. intros E. injection E as <-. reflexivity.
    - rewrite I, Ev, Cv. destruct (aty b) as [| | |tb]; try (destruct (negb _); [discriminate|]; congruence); [congruence|].
      destruct (_ && _); [discriminate|]. destruct (negb _); congruence.
  Qed.

  Lemma squeeze_facts axes s out : squeeze_of axes s out -> (length out + length axes = length s)%nat /\ prodN out = prodN s.
  Proof.
    intros (Hv & H1 & D). split.
    - pose proof (deleted_length _ _ _ _ D (named_b (length s) axes) (named_b_spec _ _)) as L. pose proof (count_named _ _ Hv _ (named_b_spec (length s) axes)). lia.
    - apply (ones_prod _ (named_b (length s) axes) (named_b_spec _ _) 0 _ _ D). exact H1.
  Qed.
  Lemma any_squeeze a rest d x xs axes outs : ntype n = "Squeeze"%string -> ninputs n = a :: rest -> is_tensor a (length (tshape x)) ->
    Forall known rest -> axes_of n ((d, x) :: xs) = Some (Some axes) -> axes <> [] ->
    given a (d, x) -> Forall2 given rest xs -> onnx_any_node n ((d, x) :: xs) outs -> infers -> any_ok outs.
  Proof.
    intros K I Ht Kn Hax Hne G Gr O T. destruct (tensor_in _ _ _ _ Ht G) as (t & Ta & _ & Et & Hd & Hr & _ & W & F & H0 & Hm).
    enter2 T K KSqueeze. apply one_type_ok in T. destruct T as (o & Ho & T).
    assert (exists s, squeeze_of axes (tshape x) s /\ outs = [(d, mkT s (tdata x))]) as (s & Hs & ->).
    { steps O. assert (axes0 = Some axes) as -> by congruence. eauto. }
    destruct (squeeze_facts _ _ _ Hs) as [Ls Ps].
    assert (Wz : twf (mkT s (tdata x))) by (unfold twf in *; cbn [tdata tshape]; rewrite Ps; exact W).
    unfold infer_squeeze in T. destruct (squeeze_axes value opset n) as [ax| |] eqn:Ex; cbn [iexpect ibind] in T; try discriminate T.
    pose proof (squeeze_axes_ok _ _ _ _ _ _ I Kn Gr Hax Hne Ex) as ->.
    unfold first_input in T. rewrite I in T. cbn [ibind] in T. rewrite Ta in T. destruct (_ <? _); [discriminate T|]. injection T as T.
    unfold squeeze_result in T. destruct (N.eqb_spec (tt_rank t - N.of_nat (length axes)) 0) as [E0|E0].
    - destruct s; [|cbn [length] in Ls; lia]. cbn in Ps.
      eapply single; [exact Ho|emit2 K I Ho KSqueeze; rewrite Ta; unfold gen_squeeze_tensor; rewrite <- T; reflexivity| |].
      + run Et. rewrite (b_reshape_to_ok [1%Z] [1] x W); [reflexivity|lia|intros v [<-|[]]; lia|].
        split; [reflexivity|]. split; [exact Ps|]. split; [|split; [discriminate|]].
        * intros [|[|i]] j H; discriminate H.
        * intros [|[|i]] v dd H H'; cbn in H, H'; try discriminate H. injection H as <-. injection H' as <-. left. lia.
      + cbn [fst snd]. rewrite <- T. split; [exact Wz|]. split; [exact F|]. split; [exact Hd|]. split; reflexivity.
    - eapply single; [exact Ho|emit2 K I Ho KSqueeze; rewrite Ta; unfold gen_squeeze_tensor; rewrite <- T, Ex; reflexivity| |].
      + run Et. cbn [tt_rank]. replace (tt_rank t - N.of_nat (length axes)) with (N.of_nat (length s)) by lia. rewrite (b_squeeze_ok axes s x W Hne Hs). reflexivity.
      + cbn [fst snd]. eapply tensor_out; [symmetry; exact T|exact Hd|exact Wz|exact F|cbn [tt_rank tshape]; lia|cbn [tt_rank]; exact E0].
  Qed.

  Lemma any_unsqueeze a rest d x xs axes outs : ntype n = "Unsqueeze"%string -> ninputs n = a :: rest -> is_tensor a (length (tshape x)) ->
    Forall known rest -> axes_of n ((d, x) :: xs) = Some (Some axes) -> Forall (fun z => 0 <= z)%Z axes ->
    given a (d, x) -> Forall2 given rest xs -> onnx_any_node n ((d, x) :: xs) outs -> infers -> any_ok outs.
  Proof.
    intros K I Ht Kn Hax Hge G Gr O T. destruct (tensor_in _ _ _ _ Ht G) as (t & Ta & _ & Et & Hd & Hr & _ & W & F & H0 & Hm).
    enter2 T K KUnsqueeze. apply one_type_ok in T. destruct T as (o & Ho & T).
    assert (exists s, unsqueeze_of axes (tshape x) s /\ outs = [(d, mkT s (tdata x))]) as (s & Hs & ->).
    { steps O. match goal with H : axes_of _ _ = Some (Some ?l0) |- _ => assert (l0 = axes) as -> by congruence end. eauto. }
    pose proof (b_unsqueeze_ok axes s x W Hge Hs) as Hrun. destruct Hs as (Ls & Hv & H1 & D).
    assert (Ps : prodN (tshape x) = prodN s) by (apply (ones_prod _ (named_b (length s) axes) (named_b_spec _ _) 0 _ _ D); exact H1).
    assert (Wz : twf (mkT s (tdata x))) by (unfold twf in *; cbn [tdata tshape]; rewrite <- Ps; exact W).
    unfold infer_unsqueeze in T. destruct (unsqueeze_axes value opset n) as [ax| |] eqn:Ex; cbn [iexpect ibind] in T; try discriminate T.
    pose proof (unsqueeze_axes_ok _ _ _ _ _ _ I Kn Gr Hax Ex) as ->.
    unfold first_input, first_output in T. rewrite I, Ho in T. cbn [ibind] in T. rewrite Ta in T. cbn [ibind] in T.
    destruct (insert_ones _ _ _ _) as [s'|]; [|discriminate T]. injection T as T.
    assert (exists d', aty o = TensorT (mkTT d' (tt_rank t + N.of_nat (length axes)) (Some s')) /\ d' = tt_dtype t) as (d' & Ho' & ->).
    { destruct (aty o) as [?|?|?|?] eqn:Eo; try discriminate T. cbn [input_dtype] in T. eexists. split; [symmetry; exact T|reflexivity]. }
    eapply single; [exact Ho|emit2 K I Ho KUnsqueeze; rewrite Ta; unfold gen_unsqueeze_tensor; rewrite Ho', Ex; reflexivity| |].
    - run Et. cbn [tt_rank]. replace (tt_rank t + N.of_nat (length axes)) with (N.of_nat (length s)) by lia. rewrite Hrun. reflexivity.
    - cbn [fst snd]. eapply tensor_out; [exact Ho'|exact Hd|exact Wz|exact F|cbn [tt_rank tshape]; lia|cbn [tt_rank]; lia].
  Qed.

  Lemma tensors_in d : forall args xs, Forall2 (fun a x => is_tensor a (length (tshape x))) args xs -> Forall2 given args (map (pair d) xs) ->
    mapo (tens e) (map aname args) = Some xs /\ Forall (fun x => twf x /\ Forall (in_dtype d) (tdata x)) xs /\
    Forall (fun a => is_scalar (aty a) = false /\ is_shape (aty a) = false) args.
  Proof.
    induction 1 as [|a x args xs Ha H IH]; intros G; cbn [map mapo]; [auto|]. inversion G as [|? ? ? ? Ga Gr]; subst.
    destruct (tensor_in _ _ _ _ Ha Ga) as (t & Ta & _ & Et & _ & _ & _ & W & F & _). destruct (IH Gr) as (-> & F1 & F2). rewrite Et.
    split; [reflexivity|]. split; constructor; auto. rewrite Ta. auto.
  Qed.
  Lemma existsb_none {A} (f : A -> bool) l : Forall (fun a => f a = false) l -> existsb f l = false.
  Proof. induction 1 as [|a l H _ IH]; cbn; [reflexivity|]. rewrite H. exact IH. Qed.
  Lemma part_at_in a k ts t j : part_at a k ts = Some (t, j) -> In t ts.
  Proof.
    revert k. induction ts as [|u ts IH]; intros k; cbn; [discriminate|]. cbv zeta. destruct (k <? _); intros H; [injection H as <- _; auto|right; exact (IH _ H)].
  Qed.
  Lemma pairs_inj {A B} (d d' : A) : forall (l l' : list B), map (pair d) l = map (pair d') l' -> l = l' /\ (l <> [] -> d = d').
  Proof.
    induction l as [|x l IH]; intros [|x' l'] E; try discriminate E; [split; [reflexivity|congruence]|].
    injection E as -> -> E. destruct (IH _ E) as [-> _]. split; reflexivity.
  Qed.
  Lemma any_concat d xs outs : ntype n = "Concat"%string -> Forall2 (fun a x => is_tensor a (length (tshape x))) (ninputs n) xs ->
    Forall2 given (ninputs n) (map (pair d) xs) -> onnx_any_node n (map (pair d) xs) outs -> infers -> any_ok outs.
  Proof.
    intros K Hts G O T.
    enter2 T K KConcat. apply one_type_ok in T. destruct T as (o & Ho & T).
    destruct (tensors_in d _ _ Hts G) as (Em & Fx & Fa).
    assert (exists a z, get_attr n "axis" = Some (AInt a) /\ onnx_concat a xs z /\ outs = [(d, z)]) as (ax & z & Ha & Hz & ->).
    { inversion O; subst; try other; try match goal with H : onnx_index_node _ _ _ |- _ => inversion H; subst; try other end.
      match goal with H : onnx_node _ _ _ |- _ => inversion H; subst; try other end.
      match goal with H : map (pair _) _ = map (pair _) _ |- _ => destruct (pairs_inj _ _ _ _ H) as [-> Hd] end.
      eexists _, _. split; [eassumption|]. split; [eassumption|]. f_equal. f_equal. apply Hd. intros ->.
      match goal with H : onnx_concat _ [] _ |- _ => destruct H as (s & _ & (C & _) & _); apply C; reflexivity end. }
    destruct Hz as (s & Hok & Hc & Hz). cbv zeta in *.
    destruct (ninputs n) as [|i0 rest] eqn:I; [inversion Hts; subst; destruct Hc as (C & _); elim C; reflexivity|].
    inversion Hts as [|? x0 ? xs' Ht0 Htr]; subst. inversion G as [|? ? ? ? G0 Gr]; subst.
    destruct (tensor_in _ _ _ _ Ht0 G0) as (t & Ta & _ & Et & Hd & Hr & _ & W & F & H0 & Hm).
    assert (Ls : length (tshape x0) = length s) by (destruct Hc as (_ & _ & Hl & _); apply (Hl (tshape x0)); left; reflexivity).
    assert (Ea : concat_axis n = IOk (N.of_nat (position (length s) ax))).
    { unfold concat_axis. rewrite Ha. cbn [attr_i64 ibind]. unfold first_input. rewrite I. cbn [ibind]. rewrite Ta, Hr, Ls, nat_N_Z.
      f_equal. apply norm_position; [lia|exact Hok]. }
    unfold infer_concat in T. rewrite Ea in T. cbn [iexpect ibind] in T. unfold first_input in T. rewrite I in T. cbn [ibind] in T.
    rewrite (existsb_none (fun a => is_scalar (aty a))) in T by (eapply Forall_impl; [|exact Fa]; cbn; tauto).
    rewrite (existsb_none (fun a => is_shape (aty a))) in T by (eapply Forall_impl; [|exact Fa]; cbn; tauto).
    destruct (if (_ && _)%bool then _ else _) as [u| |] in T; cbn [ibind] in T; try discriminate T. cbn [andb] in T. rewrite Ta in T. injection T as T.
    destruct (tab_wf _ _ _ Hz) as [Wz Sz].
    eapply single; [exact Ho| | |].
    - unfold gen_any. rewrite I, Ho, K. cbn [String.eqb Ascii.eqb Bool.eqb orb]. rewrite (kind_other _ _ KConcat K) by (cbn; tauto).
      rewrite <- T, (existsb_none (fun a => is_scalar (aty a))) by (eapply Forall_impl; [|exact Fa]; cbn; tauto).
      unfold gen_concat_tensor. rewrite Ea, I. reflexivity.
    - cbn [texec]. rewrite Em. cbn [obind]. rewrite (b_cat_ok _ _ _ _ Hc Hz). reflexivity.
    - cbn [fst snd]. eapply tensor_out; [symmetry; exact T|exact Hd|exact Wz| |cbn [tt_rank]; rewrite Sz; lia|exact H0].
      eapply tab_elems; [exact Hz|]. cbn beta. intros idx v. destruct (part_at _ _ _) as [[u0 k]|] eqn:Ep; [|discriminate]. apply part_at_in in Ep.
      rewrite Forall_forall in Fx. destruct (Fx _ Ep) as [_ Fu]. apply gets_in, Fu.
  Qed.
  Lemma cuts_lists : forall axes ss es ks cuts, cuts_of axes ss es ks = Some cuts ->
    axes = map c_axis cuts /\ ss = map c_start cuts /\ es = map c_stop cuts /\ ks = map c_step cuts.
  Proof.
    induction axes as [|a axes IH]; intros [|s ss] [|t es] [|k ks] cuts H; cbn in H; try discriminate H; [injection H as <-; auto|].
    destruct (cuts_of axes ss es ks) as [cs|] eqn:E; [|discriminate H]. cbn in H. injection H as <-. destruct (IH _ _ _ _ E) as (-> & -> & -> & ->). auto.
  Qed.
  Lemma no_zero l : (forall v, In v l -> v <> 0%Z) -> existsb (Z.eqb 0) l = false.
  Proof. intros H. destruct (existsb _ l) eqn:E; [|reflexivity]. apply existsb_exists in E. destruct E as (v & Hv & E). specialize (H v Hv). lia. Qed.
  Lemma slice_conf_tensor a rest t x xs cuts : ninputs n = a :: rest -> aty a = TensorT t -> Forall known rest -> Forall2 given rest xs ->
    slice_inputs (x :: xs) = Some cuts -> cuts <> [] -> (forall c, In c cuts -> (c_step c <> 0)%Z) ->
    exists axes starts ends steps, cuts_of axes starts ends steps = Some cuts /\
      slice_config value n = IOk (mkSlice (LStatic starts) (LStatic ends)
        (Some (LStatic (map (fun a => if (a <? 0)%Z then (a + Z.of_N (tt_rank t))%Z else a) axes))) (Some (LStatic steps))).
  Proof.
    intros I Ta Kn G S Hne Nz. unfold slice_inputs in S.
    pose proof (fun i => known_input value n e a rest x xs i I Kn G) as Kin.
    pose proof (Kin 0%nat) as K1. pose proof (Kin 1%nat) as K2. pose proof (Kin 2%nat) as K3. pose proof (Kin 3%nat) as K4. clear Kin.
    destruct (nth_error (x :: xs) 1) as [t1|] eqn:N1; [|discriminate S]. destruct (nth_error (x :: xs) 2) as [t2|] eqn:N2; [|discriminate S].
    destruct K1 as (l1 & A1 & G1 & _), K2 as (l2 & A2 & G2 & _). rewrite A1, A2 in S.
    assert (R2 : exists i1 r2, rest = i1 :: r2) by (destruct xs; [discriminate N1|]; inversion G; eauto). destruct R2 as (i1 & r2 & ->).
    unfold slice_config. rewrite I, G1. cbn [ibind]. rewrite G2. cbn [ibind].
    assert (Fin : forall axes steps, cuts_of axes l1 l2 steps = Some cuts ->
      match l1 with [] => False | _ => True end /\ existsb (Z.eqb 0) steps = false).
    { intros axes steps H. destruct (cuts_lists _ _ _ _ _ H) as (_ & -> & _ & ->). split; [destruct cuts; [contradiction|exact Logic.I]|].
      apply no_zero. intros v Hv. apply in_map_iff in Hv. destruct Hv as (c & <- & Hc). apply Nz, Hc. }
    destruct (nth_error (x :: xs) 3) as [t3|] eqn:N3; [destruct K3 as (l3 & A3 & G3 & _); rewrite A3 in S; rewrite G3|rewrite K3]; cbn [ibind];
    (destruct (nth_error (x :: xs) 4) as [t4|] eqn:N4; [destruct K4 as (l4 & A4 & G4 & _); rewrite A4 in S; rewrite G4|rewrite K4]); cbn [ibind].
    all: destruct (Fin _ _ S) as [F1 F2]; destruct l1 as [|v1 l1]; [contradiction|]; unfold mem_z; cbn [length] in *.
    all: unfold default_axes in *; rewrite F2.
    all: eexists _, _, _, _; split; [exact S|]; unfold normalize_axes; rewrite Ta; reflexivity.
  Qed.
  Lemma kept_dims r cuts s : length (map (fun l : list N => N.of_nat (length l)) (map (fun kd => kept (snd kd) (cut_at r cuts (fst kd))) (combine (seq 0 (length s)) s))) = length s.
  Proof. rewrite !map_length, combine_length, seq_length. lia. Qed.
  Lemma any_slice a rest d x xs cuts outs : ntype n = "Slice"%string -> ninputs n = a :: rest -> is_tensor a (length (tshape x)) ->
    Forall known rest -> slice_inputs ((d, x) :: xs) = Some cuts -> cuts <> [] -> Forall (cut_ok (tshape x)) cuts ->
    given a (d, x) -> Forall2 given rest xs -> onnx_any_node n ((d, x) :: xs) outs -> infers -> any_ok outs.
  Proof.
    intros K I Ht Kn Hc Hne Hcs G Gr O T. destruct (tensor_in _ _ _ _ Ht G) as (t & Ta & _ & Et & Hd & Hr & _ & W & F & H0 & Hm).
    enter2 T K KSlice. apply one_type_ok in T. destruct T as (o & Ho & T).
    assert (exists z, valid_axes (length (tshape x)) (map c_axis cuts) /\ (forall c, In c cuts -> (c_step c <> 0)%Z) /\ onnx_slice cuts x = Some z /\ outs = [(d, z)])
      as (z & Hv & Nz & Hz & ->).
    { steps O. assert (cuts0 = cuts) as -> by congruence. eauto 10. }
    destruct (slice_conf_tensor a rest t (d, x) xs cuts I Ta Kn Gr Hc Hne Nz) as (axes & starts & ends & steps & Hcut & Hconf).
    unfold infer_slice in T. rewrite Hconf in T. cbn [ibind] in T. unfold first_input in T. rewrite I in T. cbn [ibind] in T. rewrite Ta in T. injection T as T.
    destruct (set_ranges_ok (length (tshape x))) with (axes := axes) (starts := starts) (ends := ends) (steps := steps) (cuts := cuts) (rs := repeat (@None brange) (length (tshape x)))
      as (rs & Hrs & Lrs & Nrs); [unfold i64_max in Hm; lia|exact Hcut|apply repeat_length|exact Hv| |].
    { eapply Forall_impl; [|exact Hcs]. cbn beta. intros c (_ & H & _). exact H. }
    eapply single; [exact Ho|emit2 K I Ho KSlice; rewrite Ta; unfold gen_slice_tensor; rewrite Hconf; cbn [sl_starts sl_ends sl_axes sl_steps];
      rewrite Hr, nat_N_Z, Nat2N.id, Hrs; reflexivity| |].
    - run Et. rewrite (b_slice_ok rs cuts x z); [reflexivity|exact Lrs| | |exact Hz].
      + intros k Hk. rewrite (Nrs k Hk). destruct (cut_at _ _ _); [reflexivity|]. apply nth_error_repeat. exact Hk.
      + intros c Hin. rewrite Forall_forall in Hcs. destruct (Hcs c Hin) as (Hst & _ & Hdd & Hlt). apply in_range_ok; assumption.
    - cbn [fst snd]. unfold onnx_slice in Hz. cbv zeta in Hz. destruct (tab_wf _ _ _ Hz) as [Wz Sz].
      eapply tensor_out; [symmetry; exact T|exact Hd|exact Wz| |rewrite Sz, kept_dims; symmetry; exact Hr|exact H0].
      eapply tab_elems; [exact Hz|]. cbn beta. intros idx v. destruct (mapo _ _); [|discriminate]. apply gets_in, F.
  Qed.

  Lemma any_where a b c d u x y outs : ntype n = "Where"%string -> ninputs n = [a; b; c] -> is_tensor a (length (tshape u)) ->
    is_tensor b (length (tshape x)) -> is_tensor c (length (tshape y)) ->
    given a (BoolT, u) -> given b (d, x) -> given c (d, y) -> onnx_any_node n [(BoolT, u); (d, x); (d, y)] outs -> infers -> any_ok outs.
  Proof.
    intros K I Hta Htb Htc Ga Gb Gc O T.
    destruct (tensor_in _ _ _ _ Hta Ga) as (ta & Ta & _ & Ea & Hda & Hra & _ & Wa & Fa & Ha0 & _).
    destruct (tensor_in _ _ _ _ Htb Gb) as (tb & Tb & _ & Eb & Hdb & Hrb & _ & Wb & Fb & Hb0 & _).
    destruct (tensor_in _ _ _ _ Htc Gc) as (tc & Tc & _ & Ec & Hdc & Hrc & _ & Wc & Fc & Hc0 & _).
    enter2 T K KWhere. apply one_type_ok in T. destruct T as (o & Ho & T).
    assert (exists z, onnx_where u x y = Some z /\ outs = [(d, z)]) as (z & Hz & ->). { steps O. eauto. }
    set (rank := N.max (tt_rank ta) (N.max (tt_rank tb) (tt_rank tc))).
    assert (exists s, aty o = TensorT (mkTT d rank s)) as [s Ho'].
    { unfold infer_where in T. rewrite I in T. cbn [map] in T. rewrite Ta, Tb, Tc in T. cbn [is_shape_type where_elem negb andb] in T.
      destruct (negb _) in T; [discriminate T|]. rewrite Hdb, Hdc in T. replace (dtype_beq d d) with true in T by (destruct d; reflexivity). cbn [ibind andb] in T. injection T as T.
      match type of T with context [compute_broadcast_rank ?l] => replace (compute_broadcast_rank l) with rank in T by (unfold compute_broadcast_rank, rank; cbn [fold_left]; lia) end.
      replace (rank =? 0) with false in T by lia. eauto. }
    assert (Hzl : rank = N.of_nat (length (tshape z)) /\ twf z /\ Forall (in_dtype d) (tdata z)).
    { unfold onnx_where in Hz. destruct (bshape (tshape u) (tshape x)) as [s1|] eqn:E1; [|discriminate Hz]. destruct (bshape s1 (tshape y)) as [s2|] eqn:E2; [|discriminate Hz].
      destruct (tab_wf _ _ _ Hz) as [Wz Sz]. split; [|split; [exact Wz|]].
      - rewrite Sz, (bshape_length _ _ _ E2), (bshape_length _ _ _ E1). unfold rank. lia.
      - eapply tab_elems; [exact Hz|]. cbn beta. intros idx v. destruct (get u _) as [[|[]|]|]; try discriminate; apply gets_in; assumption. }
    destruct Hzl as (Hzl & Wz & Fz).
    eapply single; [exact Ho|emit2 K I Ho KWhere; rewrite Ho'; unfold gen_where_tensor; rewrite Ta, Tb, Tc, Ho'; reflexivity| |].
    - cbn [texec tt_rank]. rewrite Ea, Eb, Ec. cbn [obind]. rewrite (where_code_ok u x y z rank Wa Wb Wc Hz Hzl). reflexivity.
    - cbn [fst snd]. eapply tensor_out; [exact Ho'|reflexivity|exact Wz|exact Fz|cbn [tt_rank]; lia|cbn [tt_rank]; lia].
  Qed.
  Lemma gather_elems d axis x ix z : Forall (in_dtype d) (tdata x) -> onnx_gather axis x ix = Some z -> Forall (in_dtype d) (tdata z).
  Proof.
    intros F H. unfold onnx_gather in H. cbv zeta in H. destruct (axis_ok _ _); [|discriminate H]. eapply tab_elems; [exact H|]. cbn beta.
    intros idx v. destruct (get ix _) as [[k| |]|]; try discriminate. destruct (_ && _); [|discriminate]. apply gets_in, F.
  Qed.
  Lemma int_elts d ix : d = I64 \/ d = I32 -> Forall (in_dtype d) (tdata ix) -> exists is, as_ints ix = Some is.
  Proof.
    intros Hd F. unfold as_ints. induction F as [|v l Hv F [is IH]]; [exists []; reflexivity|].
    assert (exists z, v = EI z) as [z ->].
    { destruct v as [z| |]; [eauto| |]; destruct Hd as [-> | ->]; try discriminate Hv; destruct Hv as [f' Hf]; discriminate Hf. }
    cbn [mapo]. rewrite IH. eauto.
  Qed.
  Lemma gather_len axis x ix z : onnx_gather axis x ix = Some z -> (length (tshape z) + 1 = length (tshape x) + length (tshape ix))%nat.
  Proof.
    intros H. destruct (gather_shape x ix z axis H) as [-> _]. pose proof (gather_axis_lt x ix z axis H).
    rewrite !app_length, firstn_length, skipn_length. lia.
  Qed.
  Lemma literal_of b di ix i z : given b (di, ix) -> ix = mkT [] [EI i] -> literal_index value b = Some z -> z = i.
  Proof.
    intros (C & _) Hi H. unfold literal_index in H. unfold constant_of in C. destruct (value b) as [v|]; [|discriminate H].
    destruct (cv_ints v) as [l|]; [|discriminate H]. specialize (C _ eq_refl). destruct l as [|z' [|? ?]]; try discriminate H. injection H as ->.
    injection C as _ C. rewrite Hi in C. injection C as _ C. congruence.
  Qed.

  Section Gather.
    Variables (a b o : arg) (d di : dtype) (x ix z : tensor elt) (axis : Z) (t : tensor_type).
    Hypothesis K : ntype n = "Gather"%string.
    Hypothesis I : ninputs n = [a; b].
    Hypothesis Ho : noutputs n = [o].
    Hypothesis Ta : aty a = TensorT t.
    Hypothesis Et : tens e (aname a) = Some x.
    Hypothesis Hd : tt_dtype t = d.
    Hypothesis Hr : tt_rank t = N.of_nat (length (tshape x)).
    Hypothesis W : twf x.
    Hypothesis F : Forall (in_dtype d) (tdata x).
    Hypothesis H0 : tt_rank t <> 0.
    Hypothesis Hm : (Z.of_N (tt_rank t) <= i64_max)%Z.
    Hypothesis Gb : given b (di, ix).
    Hypothesis Hax : int_attr n "axis" 0%Z = Some axis.
    Hypothesis Hz : onnx_gather axis x ix = Some z.
    Hypothesis T : infer_gather n = IOk (aty o).
    Let ax := N.of_nat (position (length (tshape x)) axis).

    Lemma gather_facts : gather_axis n = IOk ax /\ indices_rank (aty b) + tt_rank t <> 0 /\
      aty o = if (indices_rank (aty b) + tt_rank t - 1 =? 0) then ScalarTensor d else TensorT (mkTT d (indices_rank (aty b) + tt_rank t - 1) None).
    Proof.
      assert (Hok : axis_ok (length (tshape x)) axis = true) by (pose proof Hz as H; unfold onnx_gather in H; cbv zeta in H; destruct (axis_ok _ _); [reflexivity|discriminate H]).
      split; [|split; [lia|]].
      - unfold gather_axis, first_input. rewrite I. cbn [ibind]. rewrite (int_attr_or _ _ _ _ Hax). cbn [ibind]. rewrite Ta. cbn [gather_dim]. rewrite Hr, nat_N_Z.
        f_equal. apply norm_position; [lia|exact Hok].
      - pose proof T as T'. unfold infer_gather in T'. rewrite I in T'. destruct (negb _); [discriminate T'|]. rewrite (int_attr_or _ _ _ _ Hax) in T'. cbn [ibind] in T'.
        destruct (_ || _) in T'; [discriminate T'|]. rewrite Ta in T'. unfold usub in T'. replace (1 <=? indices_rank (aty b) + tt_rank t) with true in T' by lia.
        rewrite Hd in T'. destruct (_ =? 0); injection T' as <-; reflexivity.
    Qed.
    Lemma gather_out : Forall (in_dtype d) (tdata z) /\ twf z /\ (length (tshape z) + 1 = length (tshape x) + length (tshape ix))%nat.
    Proof.
      split; [exact (gather_elems _ _ _ _ _ F Hz)|]. split; [exact (proj2 (gather_shape x ix z axis Hz))|exact (gather_len _ _ _ _ Hz)].
    Qed.
    Lemma gather_place i : ix = mkT [] [EI i] -> (- Z.of_N (nth (position (length (tshape x)) axis) (tshape x) 0%N) <= i < Z.of_N (nth (position (length (tshape x)) axis) (tshape x) 0%N))%Z ->
      aty b = ScalarNative di \/ aty b = ScalarTensor di -> (2 <= length (tshape x))%nat ->
      (exists s, index_exp b = Some s /\ scalar e s = Some (EI i)) \/ literal_index value b = Some i -> any_ok [(d, z)].
    Proof.
      intros Ei Hi Tb H2 Hex. destruct gather_facts as (Ea & _ & Eo). destruct gather_out as (Fz & Wz & Lz).
      assert (Hq : indices_rank (aty b) = 0) by (destruct Tb as [-> | ->]; reflexivity). rewrite Hq in Eo.
      replace (0 + tt_rank t - 1 =? 0) with false in Eo by lia.
      assert (Hg : exists idx, gen_any value opset n = Some (UPlace (aname a) (tt_rank t) ax idx) /\
                   match idx with ILiteral z => Some z | IExp s => match scalar e s with Some (EI z) => Some z | _ => None end end = Some i).
      { emit2 K I Ho KGather. rewrite Ta. unfold gen_gather_tensor. rewrite Ea, Eo.
        assert (Hsame : forall A (u v w : A), match aty b with ScalarTensor _ | ScalarNative _ => u | TensorT _ => v | ShapeT _ => w end = u) by (intros; destruct Tb as [-> | ->]; reflexivity).
        destruct (literal_index value b) as [z'|] eqn:El.
        - exists (ILiteral z'). pose proof (literal_of b di ix i z' Gb Ei El) as ->. split; [|reflexivity]. destruct Tb as [-> | ->]; reflexivity.
        - destruct Hex as [(s & Es & Hs)|Hl]; [|discriminate Hl]. exists (IExp s). rewrite Es, Hs. split; [|reflexivity]. destruct Tb as [-> | ->]; reflexivity. }
      destruct Hg as (idx & Hg & Hidx).
      eapply single; [exact Ho|exact Hg| |].
      - cbn [texec]. rewrite Et. cbn [obind]. rewrite Hidx. cbn [obind]. rewrite Hr. unfold ax. rewrite (place_ok x ix z axis W Hz i Ei Hi). reflexivity.
      - cbn [fst snd]. eapply tensor_out; [exact Eo|reflexivity|exact Wz|exact Fz| |cbn [tt_rank]; lia]. cbn [tt_rank]. rewrite Ei in Lz. cbn [tshape length] in Lz. lia.
    Qed.

    Lemma gather_run_time : run_time b -> di = I64 \/ di = I32 -> indices_in x ix axis -> any_ok [(d, z)].
    Proof.
      intros Rb Hdi Hin. destruct gather_facts as (Ea & _ & Eo). destruct gather_out as (Fz & Wz & Lz).
      pose proof Gb as (_ & (Wi & Fi) & Gv). cbn [fst snd] in *. destruct (int_elts _ _ Hdi Fi) as [is His].
      destruct (Gv Rb) as (v & Ev & Sv).
      assert (Hscal : aty b = ScalarNative di \/ aty b = ScalarTensor di -> any_ok [(d, z)]).
      { intros Tb. destruct (given_scalar value e b (di, ix) di Rb Gb Tb) as (u & E & Hu & Hs & Hx & _). injection E as Eix.
        assert (exists i, u = EI i) as [i ->]. { destruct (int_elts di (mkT [] [u]) Hdi) as [l Hl]; [constructor; [exact Hu|constructor]|]. destruct u; try discriminate Hl. eauto. }
        assert (Hi : (0 <= i < Z.of_N (nth (position (length (tshape x)) axis) (tshape x) 0%N))%Z) by (apply Hin; rewrite Eix; left; reflexivity).
        destruct (Nat.le_gt_cases 2 (length (tshape x))) as [H2|H2]; [apply (gather_place i Eix); [lia|exact Tb|exact H2|left; eauto]|].
        assert (H1 : length (tshape x) = 1%nat) by lia.
        assert (Hq : indices_rank (aty b) = 0) by (destruct Tb as [-> | ->]; reflexivity). rewrite Hq in Eo.
        replace (0 + tt_rank t - 1 =? 0) with true in Eo by lia.
        destruct (select_ok x ix z axis W Wi Hz [i]) as (y & Hy & Sy & Ey); [rewrite Eix; reflexivity|exact Hin|].
        assert (Hp : position (length (tshape x)) axis = 0%nat) by (pose proof (gather_axis_lt x ix z axis Hz); lia).
        rewrite Hp in Sy. cbn [firstn app length] in Sy. rewrite skipn_all2 in Sy by lia.
        rewrite Eix in Lz. cbn [tshape length] in Lz. destruct (tshape z) as [|? ?] eqn:Sz; [|cbn [length] in Lz; lia].
        eapply single; [exact Ho|emit2 K I Ho KGather; rewrite Ta; unfold gen_gather_tensor; rewrite Ea, Eo, Hx; reflexivity| |].
        - cbn [texec]. rewrite Et. cbn [obind]. rewrite Hs. unfold ax. rewrite Hy. reflexivity.
        - cbn [fst snd]. rewrite Eo. split; [exact Wz|]. split; [exact Fz|]. split; [reflexivity|]. split; [exact Sz|].
          rewrite <- Ey. cbn [tdata]. destruct y as [sy dy]. cbn [tshape tdata] in *. rewrite Sy. reflexivity. }
      destruct (aty b) as [db|db|k|tb] eqn:Tb.
      - apply Hscal. right. destruct Sv as (_ & _ & Sv). destruct v; try contradiction Sv. destruct Sv as [-> _]. reflexivity.
      - apply Hscal. left. destruct (native_value _ _ _ _ Sv) as [-> _]. reflexivity.
      - destruct (array_value _ _ _ _ Sv) as (li & -> & Hk & [(_ & Hq) | (Hq & _)]); [|destruct Hdi; congruence].
        cbn [indices_rank] in Eo. replace (1 + tt_rank t - 1) with (tt_rank t) in Eo by lia. replace (tt_rank t =? 0) with false in Eo by lia.
        destruct (select_ok x ix z axis W Wi Hz li) as (y & Hy & Sy & Ey); [rewrite Hq; apply as_ints_map|exact Hin|].
        assert (y = z) as ->. { destruct y as [sy dy]. cbn [tshape tdata] in *. rewrite <- Ey. rewrite Sy, Hq. cbn [tshape app]. rewrite Hk. reflexivity. }
        eapply single; [exact Ho|emit2 K I Ho KGather; rewrite Ta; unfold gen_gather_tensor; rewrite Ea, Eo, Tb; reflexivity| |].
        + cbn [texec]. rewrite Et. cbn [obind]. unfold arr. rewrite Ev. cbn [obind]. unfold ax. rewrite Hy. reflexivity.
        + cbn [fst snd]. eapply tensor_out; [exact Eo|reflexivity|exact Wz|exact Fz|cbn [tt_rank]|exact H0]. rewrite Hq in Lz. cbn [tshape length] in Lz. lia.
      - destruct (tensor_value _ _ _ _ Sv) as (-> & _ & Hq). assert (Hq0 : tt_rank tb <> 0) by (destruct Sv as (_ & _ & _ & _ & _ & Q); exact Q).
        cbn [indices_rank] in Eo. replace (tt_rank tb + tt_rank t - 1 =? 0) with false in Eo by lia.
        eapply single; [exact Ho|emit2 K I Ho KGather; rewrite Ta; unfold gen_gather_tensor; rewrite Ea, Eo, Tb; reflexivity| |].
        + cbn [texec]. rewrite Et. cbn [obind]. unfold tens. rewrite Ev. cbn [obind]. unfold ax. rewrite (take_ok x ix z axis W Wi Hz is His Hin). cbn [obind].
          unfold ranked. replace (N.of_nat (length (tshape z)) =? N.max 1 (tt_rank tb + tt_rank t - 1)) with true by lia. reflexivity.
        + cbn [fst snd]. eapply tensor_out; [exact Eo|reflexivity|exact Wz|exact Fz|cbn [tt_rank]; lia|cbn [tt_rank]; lia].
    Qed.
  End Gather.

  Lemma any_gather a b d x di ix axis outs : ntype n = "Gather"%string -> ninputs n = [a; b] -> is_tensor a (length (tshape x)) ->
    int_attr n "axis" 0%Z = Some axis -> run_time b -> indices_in x ix axis ->
    given a (d, x) -> given b (di, ix) -> onnx_any_node n [(d, x); (di, ix)] outs -> infers -> any_ok outs.
  Proof.
    intros K I Ht Hax Rb Hin G Gb O T. destruct (tensor_in _ _ _ _ Ht G) as (t & Ta & _ & Et & Hd & Hr & _ & W & F & H0 & Hm).
    enter2 T K KGather. apply one_type_ok in T. destruct T as (o & Ho & T).
    assert (exists z, (di = I64 \/ di = I32) /\ onnx_gather axis x ix = Some z /\ outs = [(d, z)]) as (z & Hdi & Hz & ->).
    { steps O. match goal with H : int_attr n _ _ = Some ?b |- _ => assert (b = axis) as -> by congruence end. eauto. }
    eapply gather_run_time; eassumption.
  Qed.
  Lemma any_gather_known a b d x ix i axis outs : ntype n = "Gather"%string -> ninputs n = [a; b] -> is_tensor a (length (tshape x)) ->
    (2 <= length (tshape x))%nat -> int_attr n "axis" 0%Z = Some axis -> known b -> aty b = ScalarNative I64 -> ix = mkT [] [EI i] ->
    (- Z.of_N (nth (position (length (tshape x)) axis) (tshape x) 0%N) <= i < Z.of_N (nth (position (length (tshape x)) axis) (tshape x) 0%N))%Z ->
    given a (d, x) -> given b (I64, ix) -> onnx_any_node n [(d, x); (I64, ix)] outs -> infers -> any_ok outs.
  Proof.
    intros K I Ht H2 Hax Kb Tb Ei Hi G Gb O T. destruct (tensor_in _ _ _ _ Ht G) as (t & Ta & _ & Et & Hd & Hr & _ & W & F & H0 & Hm).
    enter2 T K KGather. apply one_type_ok in T. destruct T as (o & Ho & T).
    assert (exists z, onnx_gather axis x ix = Some z /\ outs = [(d, z)]) as (z & Hz & ->).
    { steps O. match goal with H : int_attr n _ _ = Some ?b |- _ => assert (b = axis) as -> by congruence end. eauto. }
    destruct (known_value b ix [i] Kb Gb) as (v & Ev & Cv & _); [rewrite Ei; reflexivity|].
    eapply gather_place; try eassumption; [left; exact Tb|]. right. unfold literal_index. rewrite Ev, Cv. reflexivity.
  Qed.

  Lemma parts_length a x : forall sizes from zs, parts_from a x from sizes = Some zs -> length zs = length sizes.
  Proof.
    induction sizes as [|k r IH]; intros from zs H; cbn [parts_from] in H; [injection H as <-; reflexivity|].
    destruct (part_of _ _ _ _); [|discriminate H]. destruct (parts_from _ _ _ r) eqn:E; [|discriminate H]. injection H as <-. cbn. f_equal. eauto.
  Qed.
  Lemma parts_shape a x d : (a < length (tshape x))%nat -> Forall (in_dtype d) (tdata x) -> forall sizes from zs, parts_from a x from sizes = Some zs ->
    Forall (fun z => twf z /\ Forall (in_dtype d) (tdata z) /\ length (tshape z) = length (tshape x)) zs.
  Proof.
    intros Ha F. induction sizes as [|k r IH]; intros from zs H; cbn [parts_from] in H; [injection H as <-; constructor|].
    destruct (part_of _ _ _ _) eqn:Ep; [|discriminate H]. destruct (parts_from _ _ _ r) eqn:E; [|discriminate H]. injection H as <-. constructor; [|eauto].
    unfold part_of in Ep. destruct (tab_wf _ _ _ Ep) as [Wp Sp]. split; [exact Wp|]. split.
    - eapply tab_elems; [exact Ep|]. cbn beta. intros idx v. apply gets_in, F.
    - rewrite Sp. unfold at_axis. rewrite !app_length, firstn_length, skipn_length. cbn [length]. lia.
  Qed.
  Lemma parts_sizes a x : forall sizes from zs, parts_from a x from sizes = Some zs -> Forall (fun z => prodN (tshape z) <> 0) zs -> Forall (fun k => k <> 0) sizes.
  Proof.
    induction sizes as [|k r IH]; intros from zs H F; cbn [parts_from] in H; [constructor|].
    destruct (part_of _ _ _ _) eqn:Ep; [|discriminate H]. destruct (parts_from _ _ _ r) eqn:E; [|discriminate H]. injection H as <-. apply Forall_cons_iff in F as [F1 F].
    constructor; [|eauto]. unfold part_of in Ep. destruct (tab_wf _ _ _ Ep) as [_ Sp]. rewrite Sp in F1. exact (prodN_at _ _ _ F1).
  Qed.
  Lemma total_bounds : forall l, Forall (fun k => k <> 0) l -> N.of_nat (length l) <= total l /\ Forall (fun k => k <= total l) l.
  Proof.
    induction 1 as [|k l Hk F [IH1 IH2]]; [split; [cbn; lia|constructor]|]. cbn [length total fold_right]. fold (total l). split; [lia|].
    constructor; [lia|]. eapply Forall_impl; [|exact IH2]. cbn. lia.
  Qed.
  Lemma usizes m l : Forall (fun z => 0 <= z)%Z l -> Forall (fun k => k <= m) (map Z.to_N l) -> (Z.of_N m <= i64_max)%Z -> map to_usize l = map Z.to_N l.
  Proof.
    intros F G Hm. induction F as [|z l Hz F IH]; [reflexivity|]. inversion G; subst. cbn [map]. rewrite IH by assumption. f_equal.
    unfold i64_max in *. pose proof (to_usize_small z ltac:(lia)). lia.
  Qed.

  Lemma split_types_any t a rest o1 : ninputs n = a :: rest -> aty a = TensorT t -> infer_split value n = IOk o1 ->
    Forall (fun ty => exists s, ty = TensorT (mkTT (tt_dtype t) (tt_rank t) s)) o1.
  Proof.
    intros I Ta T. unfold infer_split, first_input in T. rewrite I in T. cbn [ibind] in T. rewrite Ta in T. cbn [ibind] in T.
    match type of T with ibind ?m _ = _ => destruct m as [szs| |]; try discriminate T end. cbn [ibind] in T.
    assert (Hplain : forall l : list arg, Forall (fun ty => exists s, ty = TensorT (mkTT (tt_dtype t) (tt_rank t) s)) (map (fun _ => TensorT (mkTT (tt_dtype t) (tt_rank t) None)) l)).
    { intros l. apply Forall_map, Forall_forall. intros ? _. eauto. }
    destruct szs as [l|]; [|injection T as <-; apply Hplain]. destruct (tt_shape t) as [s|]; [|injection T as <-; apply Hplain].
    destruct (attr_i64_or n "axis" 0) as [ax| |]; try discriminate T. cbn [ibind] in T. cbv zeta in T.
    revert o1 T. generalize (enumerate (noutputs n)). induction l0 as [|[i q] L IH]; intros o1 T; cbn [fold_right] in T; [injection T as <-; constructor|].
    match type of T with ibind ?m _ = _ => destruct m as [r| |]; try discriminate T end. cbn [ibind] in T. specialize (IH r eq_refl).
    destruct (nth_error l _); [destruct (_ <? _); [|discriminate T]|]; injection T as <-; constructor; eauto.
  Qed.
  Lemma stand_parts d t (x : tensor elt) : tt_dtype t = d -> tt_rank t = N.of_nat (length (tshape x)) -> tt_rank t <> 0 -> forall os zs, length os = length zs ->
    Forall (fun o => exists s, aty o = TensorT (mkTT (tt_dtype t) (tt_rank t) s)) os ->
    Forall (fun z => twf z /\ Forall (in_dtype d) (tdata z) /\ length (tshape z) = length (tshape x)) zs ->
    all_stand os (map RTensor zs) (map (pair d) zs).
  Proof.
    intros Hd Hr H0. induction os as [|o os IH]; intros [|z zs] L F G; try discriminate L; [exact Logic.I|]. apply Forall_cons_iff in F as [[s Eo] F]. apply Forall_cons_iff in G as [(Wz & Fz & Lz) G]. cbn [map all_stand fst snd].
    injection L as L. split; [|apply IH; assumption]. subst d. eapply tensor_out; [exact Eo|reflexivity|exact Wz|exact Fz| |exact H0].
    cbn [tt_rank]. lia.
  Qed.
  Lemma given_each : forall l xs b, Forall2 given l xs -> In b l -> exists x, In x xs /\ given b x.
  Proof. intros l xs b H. induction H; intros []; subst; [eexists; split; [left; reflexivity|assumption]|]. destruct IHForall2 as (q & Hq & Gq); auto. exists q. split; [right; exact Hq|exact Gq]. Qed.

  Lemma any_split a rest d x xs outs : ntype n = "Split"%string -> ninputs n = a :: rest -> is_tensor a (length (tshape x)) ->
    Forall (fun b => known b /\ exists t, aty b = TensorT t /\ tt_rank t = 1%N /\ tt_dtype t = I64) rest ->
    noutputs n <> [] -> (get_attr n "num_outputs" = None \/ get_attr n "num_outputs" = Some (AInt (Z.of_nat (length (noutputs n))))) ->
    Shapes_Spec.fits (aty a) (tshape x) -> Forall (fun k => Z.of_N k <= i64_max)%Z (tshape x) ->
    Forall (fun o => prodN (tshape (snd o)) <> 0) outs -> length outs = length (noutputs n) ->
    given a (d, x) -> Forall2 given rest xs -> onnx_any_node n ((d, x) :: xs) outs -> infers -> any_ok outs.
  Proof.
    intros K I Ht Hrest Hne Hnum Hfit Hdims Hparts Hlen G Gr O T.
    destruct (tensor_in _ _ _ _ Ht G) as (t & Ta & _ & Et & Hd & Hr & _ & W & F & H0 & Hm).
    enter T K.
    assert (exists axis sizes zs, int_attr n "axis" 0%Z = Some axis /\
       sizes_given n xs (nth (position (length (tshape x)) axis) (tshape x) 0) (length (noutputs n)) sizes /\
       onnx_split axis sizes x = Some zs /\ outs = map (pair d) zs) as (axis & sizes & zs & Hax & Hs & Hz & ->).
    { steps O. eauto 10. }
    unfold onnx_split in Hz. cbv zeta in Hz. set (p := position (length (tshape x)) axis) in *.
    destruct (axis_ok _ _) eqn:Hok; [|discriminate Hz]. cbn [andb] in Hz. destruct (total sizes =? nth p (tshape x) 0) eqn:Htot; [|discriminate Hz]. apply N.eqb_eq in Htot.
    assert (Hp : (p < length (tshape x))%nat) by (unfold p, position; unfold axis_ok in Hok; destruct (axis <? 0)%Z eqn:?; lia).
    rewrite Forall_map in Hparts. cbn [snd] in Hparts. rewrite map_length in Hlen.
    pose proof (parts_sizes _ _ _ _ _ Hz Hparts) as Hnz. pose proof (parts_length _ _ _ _ _ Hz) as Hl. destruct (total_bounds _ Hnz) as [Hb1 Hb2]. rewrite Htot in Hb1, Hb2.
    set (dd := nth p (tshape x) 0) in *.
    assert (Hdd : (Z.of_N dd <= i64_max)%Z) by (rewrite Forall_forall in Hdims; apply Hdims, nth_In, Hp).
    assert (Hout : length (noutputs n) <> 0%nat) by (destruct (noutputs n); [congruence|discriminate]).
    assert (Hc : exists c, split_config value n = IOk c /\ sp_axis c = N.of_nat p /\
      (sp_sizes c = Some (SStatic sizes) \/ (sp_sizes c = None /\ sp_num c = Some (N.of_nat (length (noutputs n))) /\ sizes = chunk_sizes dd (N.of_nat (length (noutputs n)))))).
    { unfold split_config, first_input. rewrite I. cbn [ibind]. rewrite Ta. cbn [ibind]. rewrite (int_attr_or _ _ _ _ Hax). cbn [ibind].
      set (num := match get_attr n "num_outputs" with Some _ => _ | None => _ end).
      assert (Hnum' : num = IOk None \/ num = IOk (Some (N.of_nat (length (noutputs n))))).
      { unfold num. destruct Hnum as [-> | ->]; [left; reflexivity|right]. cbn. do 2 f_equal. apply N2Z.inj. rewrite to_usize_small; unfold i64_max in *; lia. }
      replace ((axis <? - Z.of_N (tt_rank t))%Z || (axis >=? Z.of_N (tt_rank t))%Z) with false by (unfold axis_ok in Hok; lia).
      set (ax := to_usize _).
      assert (Eax : ax = N.of_nat p) by (unfold ax; rewrite Hr, nat_N_Z; apply norm_position; [lia|exact Hok]).
      set (dim := match tt_shape t with Some l => at_index l ax | None => IOk None end).
      assert (Hdim : dim = IOk None \/ dim = IOk (Some dd)).
      { unfold dim. rewrite Ta in Hfit. destruct Hfit as [_ Hfit]. destruct (tt_shape t) as [sl|]; [|left; reflexivity]. specialize (Hfit sl eq_refl).
        destruct (Infer_Proofs.fits_dims_elim _ _ Hfit) as [FL FN]. unfold at_index. rewrite Eax, Nat2N.id. replace (N.of_nat p <? N.of_nat (length sl)) with true by lia.
        destruct (nth_error sl p) as [[k|]|] eqn:Ek; [right|left; reflexivity|apply nth_error_None in Ek; lia]. rewrite <- (FN _ _ Ek). reflexivity. }
      clearbody dim num ax. subst ax.
      assert (Hexp : forall l dv, sizes = map Z.to_N l -> Forall (fun z => 0 <= z)%Z l -> dv = None \/ dv = Some dd ->
        explicit_ok l (length (noutputs n)) dv = true /\ map to_usize l = sizes).
      { intros l dv El Fl Hdv. rewrite El in Hb2. pose proof (usizes dd l Fl Hb2 Hdd) as Eu. split; [|congruence]. unfold explicit_ok.
        apply andb_true_intro. split; [apply andb_true_intro; split|].
        - apply forallb_forall. rewrite Forall_forall in Fl. intros z Hzz. specialize (Fl z Hzz). lia.
        - apply Nat.eqb_eq. rewrite El, map_length in Hl. lia.
        - destruct Hdv as [-> | ->]; [reflexivity|]. apply N.eqb_eq. rewrite Eu, <- El. change (sumN sizes) with (total sizes). rewrite Htot. apply N.mod_small. unfold i64_max, w64 in *. lia. }
      assert (Heven : onnx_even dd (N.of_nat (length (noutputs n))) sizes -> sizes = chunk_sizes dd (N.of_nat (length (noutputs n)))) by (intros Hev; symmetry; apply chunk_sizes_onnx; [lia|exact Hev]).
      assert (Hd0 : dd <> 0) by lia.
      assert (Hlne : forall l, sizes = map Z.to_N l -> l <> []) by (intros l El ->; rewrite El in Hl; cbn in Hl; lia).
      destruct xs as [|[dx sx] [|? ?]].
      - inversion Gr; subst rest. cbn [sizes_given] in Hs. destruct (get_attr n "split") as [at0|] eqn:Esp.
        + assert (exists l, at0 = AInts l /\ Forall (fun z => 0 <= z)%Z l /\ sizes = map Z.to_N l) as (l & -> & Fl & El) by (destruct at0; try contradiction Hs; eauto). cbn [attr_i64s ibind]. 
          destruct Hnum' as [-> | ->]; cbn [ibind]; [|replace (N.of_nat (length (noutputs n)) =? 0) with false by lia];
          (destruct Hdim as [-> | ->]; cbn [ibind]; [|replace (dd =? 0) with false by lia; cbn [ibind]]);
          match goal with |- context [explicit_ok l _ ?dv] => destruct (Hexp l dv El Fl ltac:(auto)) as [-> Eu] end; specialize (Hlne l El); destruct l as [|z l]; try congruence;
          cbn [ibind]; eexists; (split; [reflexivity|]); cbn [sp_axis sp_sizes]; rewrite Eu; auto.
        + destruct Hs as (_ & _ & Hev). apply Heven in Hev.
          destruct Hnum' as [-> | ->]; cbn [ibind]; [|replace (N.of_nat (length (noutputs n)) =? 0) with false by lia];
          (destruct Hdim as [-> | ->]; cbn [ibind]; [|replace (dd =? 0) with false by lia; cbn [ibind]]);
          try (destruct (Nat.eqb_spec (length (noutputs n)) 0); [lia|]); cbn [ibind]; eexists; (split; [reflexivity|]); cbn [sp_axis sp_sizes sp_num]; rewrite <- ?Hev; auto.
      - inversion Gr as [|b ? r' ? Gb Gr']; subst. inversion Gr'; subst. inversion Hrest as [|? ? (Kb & t1 & Tb & R1 & D1) _]; subst.
        cbn [sizes_given] in Hs. destruct dx; try contradiction Hs. destruct Hs as (l & Hl' & Fl & El).
        destruct (known_value b sx l Kb Gb Hl') as (v & Ev & _ & Cv & _). rewrite Tb, R1, D1. cbn [N.eqb Pos.eqb negb dtype_beq]. rewrite Ev, Cv.
        destruct Hnum' as [-> | ->]; cbn [ibind]; [|replace (N.of_nat (length (noutputs n)) =? 0) with false by lia];
        (destruct Hdim as [-> | ->]; cbn [ibind]; [|replace (dd =? 0) with false by lia; cbn [ibind]]);
        match goal with |- context [explicit_ok l _ ?dv] => destruct (Hexp l dv El Fl ltac:(auto)) as [-> Eu] end; specialize (Hlne l El); destruct l as [|z l]; try congruence;
        cbn [ibind]; eexists; (split; [reflexivity|]); cbn [sp_axis sp_sizes]; rewrite Eu; auto.
      - cbn [sizes_given] in Hs. destruct dx; contradiction Hs. }
    destruct Hc as (c & Ec & Ea & Hc).
    pose proof (b_split_ok p x Hp sizes 0 zs ltac:(lia) Hz Hparts) as Hb.
    assert (Hstand : all_stand (noutputs n) (map RTensor zs) (map (pair d) zs)).
    { pose proof (split_types_any t a rest _ I Ta T) as Hty. rewrite Forall_map in Hty. eapply stand_parts; [exact Hd|exact Hr|exact H0|lia|exact Hty|].
      exact (parts_shape p x d Hp F _ _ _ Hz). }
    destruct Hc as [Hc | (Hc & Hk & Hch)].
    - exists (USplit (aname a) sizes (N.of_nat p) (length (noutputs n))), (map RTensor zs). split; [|split; [|exact Hstand]].
      + unfold gen_any. rewrite I. destruct (noutputs n) as [|o os] eqn:Q; [congruence|]. rewrite K. cbn [String.eqb Ascii.eqb Bool.eqb]. rewrite <- Q. unfold gen_split. rewrite Ec, Hc, Ea. reflexivity.
      + cbn [texec]. rewrite Et. cbn [obind]. rewrite Hb. cbn [obind]. rewrite Hlen, Nat.eqb_refl. reflexivity.
    - exists (USplitEven (aname a) (N.of_nat p) (N.of_nat (length (noutputs n))) (length (noutputs n))), (map RTensor zs). split; [|split; [|exact Hstand]].
      + unfold gen_any. rewrite I. destruct (noutputs n) as [|o os] eqn:Q; [congruence|]. rewrite K. cbn [String.eqb Ascii.eqb Bool.eqb]. rewrite <- Q. unfold gen_split. rewrite Ec, Hc, Ea, Hk, <- Q. reflexivity.
      + cbn [texec]. rewrite Et. cbn [obind]. rewrite Nat2N.id, (nth_error_nth' _ 0 Hp). cbn [obind]. fold dd. rewrite even_sizes_ok by lia. rewrite <- Hch, Hb. cbn [obind]. rewrite Hlen, Nat.eqb_refl. reflexivity.
  Qed.

  (** *** The nodes of the other areas *)
  Lemma any_shapes ins out : Forall2 given (ninputs n) ins -> covered known n ins -> onnx_node n ins out -> infers -> any_ok [out].
  Proof.
    intros G C O T.
    assert (Hnames : forall s, In s ["Transpose"; "Flatten"; "Expand"; "Tile"; "Split"; "DepthToSpace"; "SpaceToDepth"; "CumSum"; "GatherND"; "ScatterND"]%string ->
                     String.eqb (ntype n) s = false).
    { intros s Hs. destruct (String.eqb_spec (ntype n) s) as [E|]; [|reflexivity]. exfalso.
      destruct C; try (match goal with K : ntype n = String _ _ |- _ => rewrite K in E end; subst s; cbn in Hs; repeat (destruct Hs as [Hs|Hs]; [discriminate Hs|]); exact Hs).
      match goal with B : binary_node n = Some _ |- _ => apply binary_name in B; rewrite E in B; rename B into HB end. clear - Hs HB.
      cbn in HB. cbn in Hs. repeat (destruct Hs as [<-|Hs]; [repeat (destruct HB as [HB|HB]; [discriminate HB|]); exact HB|]). exact Hs. }
    assert (T' : one_type (infer_node value opset n) = IOk (map aty (noutputs n))).
    { unfold infer_any in T. rewrite !Hnames in T by (cbn; tauto). exact T. }
    apply one_type_ok in T'. destruct T' as (o & Ho & T').
    destruct (node_all value opset n e o Ho ins out G C O T') as (s & v & Gs & Es & Vs).
    assert (Hins : exists x more, ninputs n = x :: more).
    { destruct C; try (match goal with I : ninputs n = _ |- _ => rewrite I end; eauto; fail). destruct (ninputs n) as [|x more] eqn:I; [|eauto].
      match goal with K : ntype n = _ |- _ => unfold infer_node in T'; rewrite (kind_other _ _ KConcat K) in T' by (cbn; tauto) end.
      unfold infer_concat, concat_axis, first_input in T'. rewrite I in T'. destruct (get_attr n "axis") as [at0|]; [destruct at0|]; discriminate T'. }
    destruct Hins as (x & more & I).
    apply (single o (UShapes s) v out); [exact Ho| |cbn [texec]; rewrite Es; reflexivity|exact Vs].
    unfold gen_any. rewrite I, Ho, !Hnames by (cbn; tauto). cbn [orb].
    assert (Hu : option_map UShapes (gen_node value n) = Some (UShapes s)) by (rewrite Gs; reflexivity).
    destruct C; try (match goal with I' : ninputs n = _ |- _ => rewrite I in I'; injection I' as -> -> end).
    - rewrite (kind_binary n op) by assumption. exact Hu.
    - kindof H KShape. exact Hu.
    - kindof H KShape. exact Hu.
    - kindof H KGather. match goal with A : aty _ = ShapeT _ |- _ => rewrite A end. exact Hu.
    - kindof H KGather. match goal with A : aty _ = ShapeT _ |- _ => rewrite A end. exact Hu.
    - kindof H KConcat. unfold gen_node in Gs. rewrite (kind_other _ _ KConcat H) in Gs by (cbn; tauto). rewrite Ho in Gs. unfold gen_concat in Gs.
      destruct (aty o); try discriminate Gs. exact Hu.
    - kindof H KSlice. match goal with A : aty _ = ShapeT _ |- _ => rewrite A end. exact Hu.
    - kindof H KSqueeze. match goal with A : aty _ = ShapeT _ |- _ => rewrite A end. exact Hu.
    - kindof H KUnsqueeze. match goal with A : aty _ = ScalarNative _ \/ _ |- _ => destruct A as [-> | ->] end; exact Hu.
    - kindof H KWhere. unfold gen_node in Gs. rewrite (kind_other _ _ KWhere H) in Gs by (cbn; tauto). rewrite I, Ho in Gs. unfold gen_where in Gs.
      destruct (aty o); try discriminate Gs; exact Hu.
    - kindof H KWhere. unfold gen_node in Gs. rewrite (kind_other _ _ KWhere H) in Gs by (cbn; tauto). rewrite I, Ho in Gs. unfold gen_where in Gs.
      destruct (aty o); try discriminate Gs; exact Hu.
    - kindof H KWhere. unfold gen_node in Gs. rewrite (kind_other _ _ KWhere H) in Gs by (cbn; tauto). rewrite I, Ho in Gs. unfold gen_where in Gs.
      destruct (aty o); try discriminate Gs; exact Hu.
    - kindof H KCast. exact Hu.
    - kindof H KReshape. match goal with A : aty _ = ShapeT _ |- _ => rewrite A end. exact Hu.
  Qed.
  Lemma held a r d x : is_tensor a r -> given a (d, x) -> exists v, e (aname a) = Some v /\ stands_for d (aty a) v x.
  Proof. intros (Ra & _) (_ & _ & G). exact (G Ra). Qed.
  Lemma any_gather_nd a ix d x i out : ntype n = "GatherND"%string -> ninputs n = [a; ix] -> is_tensor a (length (tshape x)) ->
    is_tensor ix (length (tshape i)) -> Shapes_Spec.fits (aty ix) (tshape i) -> (Z.of_N (prodN (tshape x)) <= 2147483648)%Z ->
    given a (d, x) -> given ix (I64, i) -> onnx_any_node n [(d, x); (I64, i)] [out] -> infers -> any_ok [out].
  Proof.
    intros K I Ha Hi Hf Hm Ga Gi O T. enter T K. apply one_type_ok in T. destruct T as (o & Ho & T).
    unfold infer_index_node in T. rewrite K in T. cbn [String.eqb Ascii.eqb Bool.eqb] in T.
    destruct (held _ _ _ _ Ha Ga) as (va & Ea & Sa). destruct (held _ _ _ _ Hi Gi) as (vi & Ei & Si).
    assert (exists b z, int_attr n "batch_dims" 0%Z = Some b /\ (0 <= b <= 9223372036854775807)%Z /\ gather_nd (Z.to_nat b) x i = Some z /\ out = (d, z)) as (b & z & Hb & Rb & Hz & ->).
    { steps O. eauto 10. }
    destruct (gathernd_node n e a ix o va vi d x i b z I Ho Ea Sa Ei Si Hf Hb Rb Hz ltac:(lia) T) as (s & v & Gs & Es & Vs).
    apply (single o (UIndex s) v); [exact Ho| |cbn [texec]; rewrite Es; reflexivity|exact Vs].
    emit K I Ho. unfold gen_index_node. rewrite K. cbn [String.eqb Ascii.eqb Bool.eqb]. rewrite Gs. reflexivity.
  Qed.
  Lemma any_scatter_nd a ix u d x i upd out : ntype n = "ScatterND"%string -> (forall k v, In (k, v) (nattrs n) -> k = "reduction"%string) ->
    ninputs n = [a; ix; u] -> is_tensor a (length (tshape x)) -> is_tensor ix (length (tshape i)) -> is_tensor u (length (tshape upd)) -> prodN (tshape x) <> 0 ->
    given a (d, x) -> given ix (I64, i) -> given u (d, upd) -> onnx_any_node n [(d, x); (I64, i); (d, upd)] [out] -> infers -> any_ok [out].
  Proof.
    intros K Hat I Ha Hi Hu Hne Ga Gi Gu O T. enter T K. apply one_type_ok in T. destruct T as (o & Ho & T).
    unfold infer_index_node in T. rewrite K in T. cbn [String.eqb Ascii.eqb Bool.eqb] in T.
    destruct (held _ _ _ _ Ha Ga) as (va & Ea & Sa). destruct (held _ _ _ _ Hi Gi) as (vi & Ei & Si). destruct (held _ _ _ _ Hu Gu) as (vu & Eu & Su).
    assert (exists red z, reduction_attr n = Some red /\ (d = BoolT -> red = RedNone) /\ scatter_nd d red x i upd = Some z /\ out = (d, z)) as (red & z & Hr & Hb & Hz & ->).
    { steps O. eauto 10. }
    assert (Hon : only_attrs n ["reduction"%string] = true) by (unfold only_attrs; apply forallb_forall; intros [k v] Hin; rewrite (Hat k v Hin); reflexivity).
    destruct Ha as (_ & _ & ta & Ta & _). destruct Hi as (_ & _ & ti & Ti & _). destruct Hu as (_ & _ & tu & Tu & _).
    destruct (scatternd_node n e a ix u o va vi vu d x i upd red z I Ho Ea Sa Ei Si Eu Su ltac:(eauto) ltac:(eauto) ltac:(eauto) Hr Hb Hz Hne Hon T) as (s & v & Gs & Es & Vs).
    apply (single o (UIndex s) v); [exact Ho| |cbn [texec]; rewrite Es; reflexivity|exact Vs].
    emit K I Ho. unfold gen_index_node. rewrite K. cbn [String.eqb Ascii.eqb Bool.eqb]. rewrite Gs. reflexivity.
  Qed.

  Lemma any_all ins outs : Forall2 given (ninputs n) ins -> covered_any known n ins outs -> onnx_any_node n ins outs ->
    length outs = length (noutputs n) -> infers -> any_ok outs.
  Proof.
    intros G C O L T. destruct C.
    all: try match goal with I : ninputs n = _ |- _ => pose proof G as G'; rewrite I in G'; inversion G' as [|? ? ? ? Ga Gr]; subst; clear G' end.
    all: repeat match goal with Q : Forall2 given (_ :: _) (_ :: _) |- _ => inversion Q; subst; clear Q end.
    - eapply any_shapes; eauto.
    - eapply any_gather_nd; eauto.
    - eapply any_scatter_nd; eauto.
    - eapply any_transpose; eauto.
    - eapply any_flatten; eauto.
    - eapply any_reshape; eauto.
    - eapply any_squeeze; eauto.
    - eapply any_unsqueeze; eauto.
    - eapply any_concat; eauto.
    - eapply any_slice; eauto.
    - eapply any_gather; eauto.
    - eapply any_gather_known; eauto.
    - eapply any_where; eauto.
    - eapply any_expand; eauto.
    - eapply any_tile; eauto.
    - eapply any_split; eauto.
    - eapply any_depth; eauto.
    - eapply any_space; eauto.
    - eapply any_cumsum; eauto.
  Qed.
End Node.

(** ** A list of nodes *)
Lemma bind_all_other {A} : forall xs vs (e : string -> option A) y, ~ In y xs -> bind_all e xs vs y = e y.
Proof.
  induction xs as [|x xs IH]; intros [|v vs] e y Hn; cbn [bind_all]; try reflexivity. rewrite IH by (intros H; apply Hn; right; exact H).
  unfold ShapeRun_Spec.bind. destruct (String.eqb_spec y x) as [->|]; [elim Hn; left; reflexivity|reflexivity].
Qed.
Lemma all_stand_length : forall os vs outs, all_stand os vs outs -> length vs = length os.
Proof. induction os as [|o os IH]; intros [|v vs] [|t outs] H; cbn in H; try contradiction; [reflexivity|]. cbn. f_equal. apply (IH _ outs), H. Qed.
Lemma holds_all ty : forall os vs outs oe e, (forall o, In o os -> aty o = ty (aname o)) -> all_stand os vs outs -> holds ty oe e ->
  holds ty (bind_all oe (map aname os) outs) (bind_all e (map aname os) vs).
Proof.
  induction os as [|o os IH]; intros [|v vs] [|t outs] oe e To H Hh; cbn in H; try contradiction; [exact Hh|]. cbn [map bind_all]. destruct H as [Hv H].
  apply IH; [intros; apply To; right; assumption|exact H|]. intros x t' Hx. unfold ShapeRun_Spec.bind in *. destruct (String.eqb_spec x (aname o)) as [->|]; [|apply Hh, Hx].
  injection Hx as <-. exists v. split; [reflexivity|]. rewrite <- (To o (or_introl eq_refl)). exact Hv.
Qed.
Lemma program_ok value opset ty ns oe oe' :
  runs_any (constant_of value) (fun n ins outs => onnx_any_node n ins outs /\ covered_any (fun a => constant_of value a <> None) n ins outs) ns oe oe' ->
  (forall a, In a (flat_map ninputs ns) -> run_time a -> aty a = ty (aname a)) ->
  (forall o, In o (flat_map noutputs ns) -> aty o = ty (aname o)) ->
  (forall n, In n ns -> infer_any value opset n = IOk (map aty (noutputs n))) ->
  constants_ok value oe ns -> forall e, holds ty oe e ->
  exists p e', gen_program value opset ns = Some p /\ exec_program p e = Some e' /\ holds ty oe' e'.
Proof.
  induction 1 as [oe|n ns oe oe' ins outs M [St Cv] L R IH]; intros Ti To Hi Hc e Hh.
  { exists [], e. auto. }
  assert (G : Forall2 (given value e) (ninputs n) ins).
  { eapply given_all; [exact Hh| | |exact M].
    - intros a Ha. apply Ti. cbn. apply in_or_app. left. exact Ha.
    - intros a c Ha Ca. destruct (Hc a c) as [W R1]; [cbn; apply in_or_app; left; exact Ha|exact Ca|]. split; [exact W|]. intros Ra. apply R1, Ra. }
  destruct (any_all value opset n e ins outs G Cv St L (Hi n (or_introl eq_refl))) as (s & vs & Gs & Es & Vs).
  destruct IH with (e := bind_all e (map aname (noutputs n)) vs) as (body & e' & Gb & Eb & He').
  - intros a Ha. apply Ti. cbn. apply in_or_app. right. exact Ha.
  - intros o' Ha. apply To. cbn. apply in_or_app. right. exact Ha.
  - intros n' Hn. apply Hi. right. exact Hn.
  - intros a c Ha Ca. destruct (Hc a c) as [W R1]; [cbn; apply in_or_app; right; exact Ha|exact Ca|]. split; [exact W|]. intros Ra.
    destruct (R1 Ra) as [E N1]. cbn in N1. rewrite map_app, in_app_iff in N1. split; [|tauto].
    rewrite bind_all_other by tauto. exact E.
  - apply holds_all; [|exact Vs|exact Hh]. intros o Hx. apply To. cbn. apply in_or_app. left. exact Hx.
  - exists ((map aname (noutputs n), s) :: body), e'. cbn [gen_program]. rewrite Gs, Gb. split; [reflexivity|]. cbn [exec_program]. rewrite Es. cbn [obind].
    rewrite (all_stand_length _ _ _ Vs), map_length, Nat.eqb_refl. split; assumption.
Qed.
