(** Proofs about reductions, MatMul, Gather, Shape and convolutions. *)
From Coq Require Import Permutation Sorted.
From Verif Require Import IR_Model IR_Proofs Tensor_Spec Tensor_Proofs Shapes_Spec Infer_Proofs ShapeOps_Model ShapeOps_Spec ShapeOps_Proofs
  AxisOps_Model AxisOps_Spec AxisOps_Proofs RankOps_Model RankOps_Spec.
From Coq Require Import ZifyBool ZifyNat ZifyN.
Local Open Scope N_scope.

(** ** Sorting *)
Lemma insert_n_perm x l : Permutation (insert_n x l) (x :: l).
Proof.
  induction l as [|y l IH]; cbn; [reflexivity|]. destruct (x <=? y); [reflexivity|]. rewrite IH. apply perm_swap.
Qed.
Lemma sort_n_perm l : Permutation (sort_n l) l.
Proof. induction l as [|x l IH]; cbn; [reflexivity|]. rewrite insert_n_perm, IH. reflexivity. Qed.
Lemma insert_n_sorted x l : StronglySorted N.le l -> StronglySorted N.le (insert_n x l).
Proof.
  induction 1 as [|y l S IH F]; cbn; [repeat constructor|]. destruct (N.leb_spec x y) as [H|H].
  - constructor; [constructor; assumption|]. constructor; [exact H|]. eapply Forall_impl; [|exact F]. cbn. intros z Hz. lia.
  - constructor; [exact IH|]. apply Forall_forall. intros z Hz. apply (Permutation_in _ (insert_n_perm x l)) in Hz.
    destruct Hz as [<-|Hz]; [lia|]. rewrite Forall_forall in F. apply F. exact Hz.
Qed.
Lemma sort_n_sorted l : StronglySorted N.le (sort_n l).
Proof. induction l as [|x l IH]; cbn; [constructor|apply insert_n_sorted; exact IH]. Qed.
Lemma strictly l : StronglySorted N.le l -> NoDup l -> StronglySorted N.lt l.
Proof.
  induction 1 as [|x l S IH F]; intros Hn; [constructor|]. inversion Hn as [|? ? Hx Hn']; subst. constructor; [apply IH; exact Hn'|].
  apply Forall_forall. intros y Hy. rewrite Forall_forall in F. specialize (F y Hy). assert (x <> y) by (intros ->; contradiction). lia.
Qed.

(** ** Removing sorted positions from the end. *)
Definition keepf {A} (f : nat -> bool) (i : nat) (l : list A) : list A := map snd (filter (fun ip => negb (f (fst ip))) (enumerate_from i l)).
Lemma remove_keepf {A} : forall (l : list A) f i a, (a < length l)%nat -> (forall j, (i <= j <= i + a)%nat -> f j = false) ->
  remove_at a (keepf f i l) = IOk (keepf (fun j => f j || Nat.eqb j (i + a)) i l).
Proof.
  unfold keepf. induction l as [|x l IH]; intros f i a Ha Hf; [cbn in Ha; lia|]. cbn [enumerate_from filter fst map snd].
  rewrite (Hf i) by lia. cbn [negb map snd]. destruct a as [|a].
  - cbn [remove_at]. rewrite Nat.add_0_r, Nat.eqb_refl. cbn [orb negb]. f_equal. f_equal.
    assert (G : forall k m, (i < k)%nat -> filter (fun ip : nat * A => negb (f (fst ip))) (enumerate_from k m) = filter (fun ip => negb (f (fst ip) || (fst ip =? i)%nat)) (enumerate_from k m)).
    { intros k m. revert k. induction m as [|y m IHm]; intros k Hk; cbn; [reflexivity|]. replace (k =? i)%nat with false by lia. rewrite orb_false_r.
      rewrite (IHm (S k)) by lia. reflexivity. }
    apply G. lia.
  - cbn [remove_at]. replace (i =? i + S a)%nat with false by lia. cbn [orb negb map snd].
    rewrite (IH f (S i) a); [|cbn in Ha; lia|intros j Hj; apply Hf; lia]. cbn [ibind]. do 3 f_equal.
    replace (S i + a)%nat with (i + S a)%nat by lia. reflexivity.
Qed.
Lemma keepf_ext {A} f g i (l : list A) : (forall j, f j = g j) -> keepf f i l = keepf g i l.
Proof. intros H. unfold keepf. f_equal. apply filter_ext. intros p. rewrite H. reflexivity. Qed.

Lemma remove_rev_keep : forall dims (shape : list (option N)), StronglySorted N.lt dims -> Forall (fun d => d < N.of_nat (length shape)) dims ->
  remove_rev dims shape = IOk (keepf (fun j => mem_n (N.of_nat j) dims) 0 shape).
Proof.
  induction dims as [|d dims IH]; intros shape S F; cbn [remove_rev].
  - f_equal. unfold keepf. cbn.
    assert (G : forall i (m : list (option N)), map snd (filter (fun _ : nat * option N => true) (enumerate_from i m)) = m).
    { intros i m. revert i. induction m as [|y m IHm]; intros i; cbn; [reflexivity|]. f_equal. apply IHm. }
    symmetry. apply G.
  - inversion S as [|? ? S' Hd]; subst. inversion F as [|? ? Fd F']; subst. rewrite (IH shape S' F'). cbn [ibind].
    rewrite remove_keepf; [|lia|].
    + f_equal. apply keepf_ext. intros j. cbn [Nat.add mem_n existsb]. rewrite orb_comm. f_equal. lia.
    + intros j Hj. destruct (mem_n (N.of_nat j) dims) eqn:E; [|reflexivity]. apply mem_n_In in E. rewrite Forall_forall in Hd. specialize (Hd _ E). lia.
Qed.

Lemma set_ones_nth : forall dims shape r, set_ones dims shape = IOk r -> length r = length shape /\
  forall k, nth_error r k = if mem_n (N.of_nat k) dims then Some (Some 1) else nth_error shape k.
Proof.
  induction dims as [|d dims IH]; intros shape r H; cbn [set_ones] in H.
  - injection H as <-. split; [reflexivity|]. intros k. reflexivity.
  - unfold store_at in H. destruct (Nat.ltb_spec (N.to_nat d) (length shape)) as [Hd|Hd]; [|discriminate]. cbn [ibind] in H.
    destruct (IH _ _ H) as [HL HN]. rewrite set_nth_length in HL. split; [exact HL|]. intros k. rewrite HN. cbn [mem_n existsb].
    fold (mem_n (N.of_nat k) dims). destruct (mem_n (N.of_nat k) dims); [rewrite orb_true_r; reflexivity|]. rewrite orb_false_r.
    rewrite set_nth_nth. destruct (N.eqb_spec (N.of_nat k) d) as [E|E].
    + subst d. rewrite Nat2N.id in *. rewrite Nat.eqb_refl. destruct (nth_error shape k) eqn:En; [reflexivity|]. apply nth_error_None in En. lia.
    + destruct (Nat.eqb_spec k (N.to_nat d)) as [C|C]; [lia|reflexivity].
Qed.

(** ** Reduce *)
(** How a reduction's axes are given: a constant second input wins over the
    attribute; neither means none. *)
Definition reduce_axes_given (value : arg -> option cval) (n : rnode) (axes : list Z) : Prop :=
  (exists i1 v, nth_error (ninputs n) 1 = Some i1 /\ value i1 = Some v /\ cv_dtype v = I64 /\ cv_ints v = Some axes) \/
  (nth_error (ninputs n) 1 = None /\ (as_attribute n "axes" axes \/ (get_attr n "axes" = None /\ axes = []))).

Lemma reduce_config_ok value n i0 rest t axes keep c :
  ninputs n = i0 :: rest -> aty i0 = TensorT t -> reduce_axes_given value n axes -> attr_i64_or n "keepdims" 1 = IOk keep ->
  reduce_config value n = IOk c -> c = (sort_n (map (norm_axis (tt_rank t)) axes), Z.eqb keep 1).
Proof.
  intros Hi Ht Hg Hk H. unfold reduce_config, first_input in H. rewrite Hi in H. cbn [ibind] in H. rewrite Ht in H.
  destruct (match get_attr n "axes" with Some a => attr_i64s a | None => IOk [] end) as [aa| |] eqn:Ea; try discriminate. cbn [ibind] in H.
  rewrite Hk in H. cbn [ibind] in H. rewrite <- Hi in H. destruct Hg as [[i1 [v [E1 [E2 [E3 E4]]]]]|[E1 E2]].
  - rewrite E1, E2 in H. unfold cv_i64s in H. rewrite E3, E4 in H. cbn in H. congruence.
  - rewrite E1 in H. cbn [ibind] in H. destruct E2 as [E2|[E2 E3]].
    + unfold as_attribute in E2. rewrite E2 in Ea. cbn in Ea. congruence.
    + rewrite E2 in Ea. congruence.
Qed.

Lemma deleted_ext P Q : (forall k, P k <-> Q k) -> forall i s out, deleted P i s out -> deleted Q i s out.
Proof.
  intros H i s out D. induction D as [i|i d s out HP D IH|i d s out HP D IH].
  - constructor.
  - apply del_drop; [apply H; exact HP|exact IH].
  - apply del_keep; [rewrite <- H; exact HP|exact IH].
Qed.
Lemma deleted_all (P : nat -> Prop) : (forall k, P k) -> forall i s out, deleted P i s out -> out = [].
Proof. intros H i s out D. induction D as [i|i d s out HP D IH|i d s out HP D IH]; [reflexivity|exact IH|]. destruct HP. apply H. Qed.

Lemma norm_nodup r axes : r < r63 -> valid_axes (N.to_nat r) axes -> NoDup (map (norm_axis r) axes).
Proof.
  intros Hr [Hv Hn]. assert (E : map (norm_axis r) axes = map N.of_nat (map (position (N.to_nat r)) axes)).
  { rewrite map_map. apply map_ext_in. intros a Ha. apply norm_axis_position; [exact Hr|]. specialize (Hv a Ha). lia. }
  rewrite E. apply FinFun.Injective_map_NoDup; [|exact Hn]. intros x y Hxy. lia.
Qed.

Lemma reduce_sound value n i0 rest t axes keep s out ty :
  ninputs n = i0 :: rest -> aty i0 = TensorT t -> reduce_axes_given value n axes -> attr_i64_or n "keepdims" 1 = IOk keep ->
  tt_rank t < r63 -> fits (aty i0) s -> reduce_of axes (Z.eqb keep 1) s out -> (axes = [] -> keep <> 1%Z) ->
  infer_reduce value n = IOk ty -> fits ty out.
Proof.
  intros Hi Ht Hg Hk Hw Hf [Hv Hof] Hne H. unfold infer_reduce, first_input in H. rewrite Hi in H. cbn [ibind] in H. rewrite Ht in H, Hf.
  destruct (reduce_config value n) as [c| |] eqn:Ec; try discriminate. cbn [iexpect ibind] in H.
  rewrite (reduce_config_ok value n i0 rest t axes keep c Hi Ht Hg Hk Ec) in H. clear Ec c.
  pose proof (proj1 Hf) as Hr. assert (Hrn : N.to_nat (tt_rank t) = length s) by lia.
  assert (Hv' : valid_axes (N.to_nat (tt_rank t)) axes) by (rewrite Hrn; exact Hv).
  set (dims := sort_n (map (norm_axis (tt_rank t)) axes)) in *.
  assert (Hp : Permutation dims (map (norm_axis (tt_rank t)) axes)) by apply sort_n_perm.
  assert (HL : length dims = length axes) by (rewrite (Permutation_length Hp), map_length; reflexivity).
  assert (Hmem : forall k, mem_n (N.of_nat k) dims = true <-> named (length s) axes k).
  { intros k. rewrite <- Hrn, <- (mem_norm (tt_rank t) axes k Hw); [|intros a Ha; destruct Hv' as [Hv'' _]; specialize (Hv'' a Ha); lia].
    rewrite !mem_n_In. split; intros Hk'; [exact (Permutation_in _ Hp Hk')|exact (Permutation_in _ (Permutation_sym Hp) Hk')]. }
  assert (HF : Forall (fun d => d < N.of_nat (length s)) dims).
  { apply Forall_forall. intros d Hd. apply (Permutation_in _ Hp) in Hd. apply in_map_iff in Hd. destruct Hd as [a [<- Ha]].
    destruct Hv as [Hv0 _]. specialize (Hv0 a Ha). rewrite norm_axis_position; [|exact Hw|lia]. rewrite Hrn.
    assert (position (length s) a < length s)%nat by (apply position_lt; lia). lia. }
  assert (HS : StronglySorted N.le dims) by apply sort_n_sorted. clearbody dims.
  destruct (Z.eqb_spec keep 1) as [Ek|Ek].
  - cbn [negb andb] in H. destruct axes as [|a0 axes']; [destruct (Hne eq_refl Ek)|]. set (axes := a0 :: axes') in *.
    destruct Hof as [Hl Hk'].
    destruct (tt_shape t) as [l|] eqn:El.
    + destruct (fits_dims_elim _ _ (proj2 Hf l El)) as [Ll Ln]. replace (N.of_nat (length l) =? tt_rank t) with true in H by lia.
      destruct (set_ones dims l) as [r| |] eqn:Es; try discriminate. cbn [ibind] in H. injection H as <-.
      destruct (set_ones_nth _ _ _ Es) as [Lr Nr]. split; [cbn; lia|]. cbn. intros l' E'. injection E' as <-. apply fits_dims_intro; [lia|].
      intros k d Hd. rewrite Nr in Hd.
      assert (Hks : (k < length s)%nat).
      { destruct (mem_n (N.of_nat k) dims) eqn:Em.
        - apply mem_n_In in Em. rewrite Forall_forall in HF. specialize (HF _ Em). lia.
        - rewrite <- Ll. apply nth_error_Some. congruence. }
      destruct (nth_error s k) as [e|] eqn:Ene; [|apply nth_error_None in Ene; lia].
      destruct (Hk' k e Ene) as [Ha Hb]. destruct (mem_n (N.of_nat k) dims) eqn:Em.
      * injection Hd as <-. apply Hmem in Em. specialize (Ha (or_intror Em)). apply (nth_error_nth _ _ 0%N). exact Ha.
      * assert (Hn : ~ reduced (length s) axes k).
        { intros [C|C]; [discriminate|]. apply Hmem in C. congruence. }
        specialize (Hb Hn). rewrite (nth_error_nth _ _ 0%N Hb). rewrite <- (Ln k d Hd). symmetry. apply (nth_error_nth _ _ 0%N). exact Ene.
    + cbn [ibind] in H. injection H as <-. split; [cbn; lia|]. cbn. discriminate.
  - cbn [negb andb] in H.
    destruct (Nat.eqb_spec (length dims) 0) as [E0|E0]; cbn [orb] in H.
    { injection H as <-. cbn. assert (axes = []) by (destruct axes; [reflexivity|cbn in HL; lia]). subst axes.
      apply (deleted_all _ (fun k => or_introl eq_refl) _ _ _ Hof). }
    assert (Hax : axes <> []) by (intros ->; cbn in HL; lia).
    assert (D : deleted (named (length s) axes) 0 s out).
    { eapply deleted_ext; [|exact Hof]. intros k. unfold reduced. split; [intros [C|C]; [contradiction|exact C]|intros C; right; exact C]. }
    pose proof (deleted_length _ _ _ _ D (named_b (length s) axes) (named_b_spec _ _)) as Lo.
    pose proof (count_named _ _ Hv _ (named_b_spec (length s) axes)) as Cn.
    destruct (N.eqb_spec (N.of_nat (length dims)) (tt_rank t)) as [E1|E1].
    { injection H as <-. cbn. apply length_zero_iff_nil. lia. }
    assert (Hrank : usub (tt_rank t) (N.of_nat (length dims)) = N.of_nat (length out)).
    { unfold usub. destruct (N.leb_spec (N.of_nat (length dims)) (tt_rank t)); lia. }
    destruct (tt_shape t) as [l|] eqn:El.
    + destruct (fits_dims_elim _ _ (proj2 Hf l El)) as [Ll Ln]. replace (N.of_nat (length l) =? tt_rank t) with true in H by lia.
      rewrite (remove_rev_keep dims l) in H.
      * cbn [ibind] in H. injection H as <-. split; [cbn; lia|]. cbn. intros l' E'. injection E' as <-.
        apply (deleted_fits (named (length s) axes) (fun x => mem_n x dims)) with (s := s); [exact Hmem|exact D|exact (proj2 Hf l El)].
      * apply strictly; [exact HS|]. apply (Permutation_NoDup (Permutation_sym Hp)). apply norm_nodup; [exact Hw|exact Hv'].
      * rewrite Ll. exact HF.
    + cbn [ibind] in H. injection H as <-. split; [cbn; lia|]. cbn. discriminate.
Qed.

(** ** ArgMax, TopK *)
Lemma arg_sound n i0 rest t axis keep s out ty :
  ninputs n = i0 :: rest -> aty i0 = TensorT t -> attr_i64_or n "axis" 0 = IOk axis -> attr_i64_or n "keepdims" 1 = IOk keep ->
  fits (aty i0) s -> reduce_of [axis] (Z.eqb keep 1) s out -> infer_arg n = IOk ty -> fits ty out.
Proof.
  intros Hi Ht Ha Hk Hf [Hv Hof] H. unfold infer_arg, arg_config, first_input in H. rewrite Hi in H. cbn [ibind] in H. rewrite Ht in H, Hf.
  rewrite Ha, Hk in H. cbn [ibind] in H. destruct (attr_i64_or n "select_last_index" 0) as [la| |]; try discriminate. cbn [ibind] in H.
  destruct (Z.eqb_spec keep 1) as [Ek|Ek].
  - subst keep. cbn [Z.eqb negb andb] in H. destruct (negb (la =? 0)%Z); [discriminate|]. cbn in H. injection H as <-.
    destruct Hof as [Hl _]. destruct Hf as [Hf _]. split; [cbn; lia|]. cbn. discriminate.
  - destruct (Z.eqb_spec keep 0) as [E0|E0]; [|discriminate]. cbn [negb andb] in H. destruct (negb (la =? 0)%Z); [discriminate|]. cbn [iexpect ibind snd] in H.
    assert (D : deleted (named (length s) [axis]) 0 s out).
    { eapply deleted_ext; [|exact Hof]. intros k. unfold reduced. split; [intros [C|C]; [discriminate|exact C]|intros C; right; exact C]. }
    pose proof (deleted_length _ _ _ _ D (named_b (length s) [axis]) (named_b_spec _ _)) as Lo.
    pose proof (count_named _ _ Hv _ (named_b_spec (length s) [axis])) as Cn. cbn [length] in Cn. destruct Hf as [Hf _].
    destruct (N.eqb_spec (tt_rank t) 1) as [E1|E1].
    + injection H as <-. cbn. apply length_zero_iff_nil. lia.
    + injection H as <-. split; [cbn; unfold usub; destruct (N.leb_spec 1 (tt_rank t)); lia|]. cbn. discriminate.
Qed.

Lemma arg_axis n i0 rest t axis keep c :
  ninputs n = i0 :: rest -> aty i0 = TensorT t -> attr_i64_or n "axis" 0 = IOk axis -> attr_i64_or n "keepdims" 1 = IOk keep ->
  tt_rank t < r63 -> (- Z.of_N (tt_rank t) <= axis < Z.of_N (tt_rank t))%Z -> arg_config n = IOk c ->
  fst c = N.of_nat (position (N.to_nat (tt_rank t)) axis) /\ (snd c = true <-> keep = 1%Z) /\ (keep = 0%Z \/ keep = 1%Z).
Proof.
  intros Hi Ht Ha Hk Hw Hx H. unfold arg_config, first_input in H. rewrite Hi in H. cbn [ibind] in H. rewrite Ht in H.
  rewrite Ha, Hk in H. cbn [ibind] in H. destruct (attr_i64_or n "select_last_index" 0) as [la| |]; try discriminate. cbn [ibind] in H.
  destruct (Z.eqb_spec keep 0); destruct (Z.eqb_spec keep 1); cbn [negb andb] in H; try discriminate;
    (destruct (negb (la =? 0)%Z); [discriminate|]); injection H as <-; cbn [fst snd]; (split; [apply norm_axis_position; assumption|]);
    (split; [split; intros; congruence|auto]).
Qed.

Lemma topk_sound n i0 rest t axis k s out tys :
  ninputs n = i0 :: rest -> aty i0 = TensorT t -> fits (aty i0) s -> topk_of axis k s out ->
  infer_topk n = IOk tys -> fits (fst tys) out /\ fits (snd tys) out.
Proof.
  intros Hi Ht Hf [_ [Hl _]] H. unfold infer_topk in H. destruct (attr_i64_or n "largest" 1) as [la| |]; try discriminate. cbn [ibind] in H.
  destruct (negb (la =? 1)%Z); [discriminate|]. destruct (attr_i64_or n "sorted" 1) as [so| |]; try discriminate. cbn [ibind] in H.
  destruct (negb (so =? 1)%Z); [discriminate|]. unfold first_input in H. rewrite Hi in H. cbn [ibind] in H. rewrite Ht in H, Hf. injection H as <-.
  destruct Hf as [Hf _]. split; (split; [cbn; lia|cbn; discriminate]).
Qed.

(** ** MatMul *)
Lemma bcast_length a b c : bcast_of [a; b] c -> length c = Nat.max (length a) (length b).
Proof.
  intros [H1 [H2 _]]. pose proof (H1 a (or_introl eq_refl)). pose proof (H1 b (or_intror (or_introl eq_refl))).
  destruct H2 as [->|[x [[<-|[<-|[]]] Hx]]]; cbn in *; lia.
Qed.
Lemma matmul_sound n i0 i1 rest a b out ty :
  ninputs n = i0 :: i1 :: rest -> fits (aty i0) a -> fits (aty i1) b -> matmul_of a b out ->
  (length a <> 1 \/ length b <> 1)%nat -> infer_matmul n = IOk ty -> fits ty out.
Proof.
  intros Hi Fa Fb [ba [bb [bat [m [k [q [Ha [Hb [Hc Ho]]]]]]]]] Hne H. unfold infer_matmul in H. destruct (nattrs n); [|discriminate]. rewrite Hi in H.
  destruct (aty i0) as [| | |ta]; try discriminate. destruct (aty i1) as [| | |tb]; try discriminate.
  destruct (negb _); [discriminate|]. destruct (_ || _)%bool; [discriminate|]. injection H as <-.
  destruct Fa as [Fa _]. destruct Fb as [Fb _]. split; [|cbn; discriminate]. cbn [tt_rank].
  pose proof (bcast_length _ _ _ Hc) as L.
  assert (La : length a = (length ba + 2)%nat \/ (length a = 1%nat /\ length ba = 0%nat)).
  { destruct Ha as [->|[-> ->]]; [left; rewrite app_length; reflexivity|right; split; reflexivity]. }
  assert (Lb : length b = (length bb + 2)%nat \/ (length b = 1%nat /\ length bb = 0%nat)).
  { destruct Hb as [->|[-> ->]]; [left; rewrite app_length; reflexivity|right; split; reflexivity]. }
  assert (Lo : length out = (length bat + (if Nat.eqb (length a) 1 then 0 else 1) + (if Nat.eqb (length b) 1 then 0 else 1))%nat).
  { rewrite Ho, !app_length. destruct (Nat.eqb (length a) 1); destruct (Nat.eqb (length b) 1); cbn; lia. }
  destruct (Nat.eqb_spec (length a) 1); destruct (Nat.eqb_spec (length b) 1); try lia;
    destruct ((2 <=? tt_rank ta) && (tt_rank tb =? 1) || (tt_rank ta =? 1) && (2 <=? tt_rank tb))%bool eqn:E; lia.
Qed.

(** ** Gather *)
Lemma gather_sound n i0 i1 rest axis s idx out ty :
  ninputs n = i0 :: i1 :: rest -> attr_i64_or n "axis" 0 = IOk axis -> fits (aty i0) s -> fits (aty i1) idx -> gather_of axis s idx out ->
  ((exists r, aty i0 = ShapeT r) -> idx = [] \/ exists r, aty i1 = ShapeT r) ->
  infer_gather n = IOk ty -> fits ty out.
Proof.
  intros Hi Ha Fs Fi [Hax Ho] Hsh H. unfold infer_gather in H. rewrite Hi in H. destruct (negb _); [discriminate|]. rewrite Ha in H. cbn [ibind] in H.
  destruct ((_ <? 0)%Z || _)%bool; [discriminate|].
  assert (Lp : (position (length s) axis < length s)%nat) by (apply position_lt; lia).
  assert (Lo : length out = (length s - 1 + length idx)%nat).
  { rewrite Ho, !app_length, firstn_length, skipn_length. lia. }
  assert (Lq : indices_rank (aty i1) = N.of_nat (length idx)).
  { destruct (aty i1) as [d|d|r|t]; cbn in Fi |- *; [subst; reflexivity|subst; reflexivity|subst; reflexivity|destruct Fi as [Fi _]; congruence]. }
  rewrite Lq in H. destruct (aty i0) as [d|d|r|t] eqn:E0.
  - cbn in Fs. subst s. cbn in Hax. lia.
  - cbn in Fs. subst s. cbn in Hax. lia.
  - cbn in Fs. subst s. cbn [length] in Lo, Lp. assert (Hp : position 1 axis = 0%nat) by lia.
    assert (Eo : out = idx) by (rewrite Ho; cbn [length]; rewrite Hp; cbn; apply app_nil_r). rewrite Eo. clear Ho Lo Eo.
    destruct (Hsh (ex_intro _ r eq_refl)) as [->|[r' E1]].
    + cbn in H. injection H as <-. reflexivity.
    + rewrite E1 in H, Fi. cbn in Fi. subst idx. cbn in H. injection H as <-. reflexivity.
  - destruct Fs as [Fs _]. assert (Er : usub (N.of_nat (length idx) + tt_rank t) 1 = N.of_nat (length out)).
    { unfold usub. destruct (N.leb_spec 1 (N.of_nat (length idx) + tt_rank t)); lia. }
    rewrite Er in H. destruct (N.eqb_spec (N.of_nat (length out)) 0) as [E|E]; injection H as <-.
    + cbn. destruct out; [reflexivity|cbn in E; lia].
    + split; [reflexivity|]. cbn. discriminate.
Qed.

(** ** Shape *)
Lemma shape_value_length s start stop : let (a, b) := shape_bounds (length s) start stop in
  Z.of_nat (length (shape_value s start stop)) = Z.max 0 (b - a).
Proof.
  unfold shape_value, shape_bounds. set (a := clamp 0 (Z.of_nat (length s)) (from_end (Z.of_nat (length s)) start)).
  set (b := clamp 0 (Z.of_nat (length s)) (from_end (Z.of_nat (length s)) stop)).
  assert (0 <= a <= Z.of_nat (length s))%Z by (unfold a, clamp; lia). assert (0 <= b <= Z.of_nat (length s))%Z by (unfold b, clamp; lia).
  rewrite firstn_length, skipn_length. lia.
Qed.
Lemma shape_sound n i0 rest t start stop s ty :
  ninputs n = i0 :: rest -> aty i0 = TensorT t -> fits (aty i0) s ->
  attr_i64_or n "start" 0 = IOk start -> attr_i64_or n "end" (Z.of_N (tt_rank t)) = IOk stop -> tt_rank t < r63 ->
  (- Z.of_nat (length s) <= start <= Z.of_nat (length s))%Z -> (- Z.of_nat (length s) <= stop <= Z.of_nat (length s))%Z ->
  (from_end (Z.of_nat (length s)) start <= from_end (Z.of_nat (length s)) stop)%Z ->
  infer_shape n = IOk ty -> fits ty [N.of_nat (length (shape_value s start stop))].
Proof.
  intros Hi Ht Hf Hs He Hw Rs Re Hle H. unfold infer_shape, shape_config, first_input in H. rewrite Hi in H. cbn [ibind] in H. rewrite Ht in H, Hf.
  cbn [ibind] in H. rewrite Hs, He in H. cbn [iexpect ibind fst snd] in H. injection H as <-. cbn [fits]. f_equal.
  pose proof (shape_value_length s start stop) as L. unfold shape_bounds in L. cbv beta iota in L. destruct Hf as [Hf _].
  assert (Hn : forall x, (- Z.of_nat (length s) <= x <= Z.of_nat (length s))%Z -> Z.of_N (norm_axis (tt_rank t) x) = from_end (Z.of_nat (length s)) x).
  { intros x Hx. unfold norm_axis, from_end. unfold r63 in Hw. destruct (Z.ltb_spec x 0); rewrite to_usize_small by lia; lia. }
  pose proof (Hn start Rs) as A. pose proof (Hn stop Re) as B.
  assert (Ca : clamp 0 (Z.of_nat (length s)) (from_end (Z.of_nat (length s)) start) = from_end (Z.of_nat (length s)) start) by (unfold clamp, from_end; destruct (Z.ltb_spec start 0); lia).
  assert (Cb : clamp 0 (Z.of_nat (length s)) (from_end (Z.of_nat (length s)) stop) = from_end (Z.of_nat (length s)) stop) by (unfold clamp, from_end; destruct (Z.ltb_spec stop 0); lia).
  rewrite Ca, Cb in L. unfold usub. destruct (N.leb_spec (norm_axis (tt_rank t) start) (norm_axis (tt_rank t) stop)); lia.
Qed.

(** ** Convolution *)
Lemma kernel_count padded kernel stride dilation : 0 < stride -> 0 < kernel -> dilation * (kernel - 1) < padded ->
  window_size padded kernel stride dilation = (padded - dilation * (kernel - 1) - 1) / stride + 1.
Proof.
  intros Hs Hk Hfit. unfold window_size, kernel_positions. set (e := dilation * (kernel - 1)) in *. clearbody e.
  replace (N.to_nat padded) with (N.to_nat (padded - e) + N.to_nat e)%nat by lia.
  rewrite seq_app, filter_app, app_length.
  rewrite (filter_none _ (seq (0 + N.to_nat (padded - e)) (N.to_nat e))) by (intros i Hi; apply in_seq in Hi; lia).
  cbn [length]. rewrite Nat.add_0_r. apply N2Z.inj. rewrite nat_N_Z.
  pose proof (count_multiples (Z.of_N stride) 0 ltac:(lia) (N.to_nat (padded - e))) as C.
  rewrite (filter_ext_in _ (fun i => ((Z.of_nat i - Z.of_nat 0) mod Z.of_N stride =? 0)%Z)).
  - rewrite C. set (q := padded - e - 1). replace (Z.of_nat (N.to_nat (padded - e)) + Z.of_N stride - 1)%Z with (Z.of_N q + 1 * Z.of_N stride)%Z by lia.
    rewrite Z.div_add by lia. rewrite N2Z.inj_add, N2Z.inj_div. lia.
  - intros i Hi. apply in_seq in Hi. replace (N.of_nat i + e <? padded) with true by lia. rewrite andb_true_r.
    replace (Z.of_nat i - Z.of_nat 0)%Z with (Z.of_nat i) by lia.
    assert (E : Z.of_nat (i mod N.to_nat stride) = (Z.of_nat i mod Z.of_N stride)%Z) by (rewrite Nat2Z.inj_mod, N_nat_Z; reflexivity).
    rewrite <- E. lia.
Qed.

Definition small (x : N) : Prop := x < 4611686018427387904.
Lemma compute_spatial_ok d kernel stride dilation pb pe r :
  0 < kernel -> small (d + pb + pe) -> small (dilation * (kernel - 1)) -> small dilation -> small kernel ->
  compute_spatial (Some d) kernel stride dilation pb pe = Some r ->
  r = window_size (d + pb + pe) kernel stride dilation.
Proof.
  unfold small. intros Hk H1 H2 H3 H4 H. unfold compute_spatial in H.
  assert (Ez : (Z.of_N dilation * (Z.of_N kernel - 1) = Z.of_N (dilation * (kernel - 1)))%Z) by (rewrite N2Z.inj_mul, N2Z.inj_sub by lia; reflexivity).
  set (e := dilation * (kernel - 1)) in *. 
  rewrite (N.mod_small (pb + pe) w64) in H by (unfold w64; lia).
  rewrite (i64_id (Z.of_N d)), (i64_id (Z.of_N (pb + pe))), (i64_id (Z.of_N dilation)), (i64_id (Z.of_N kernel)), (i64_id (Z.of_N kernel - 1)) in H by lia.
  rewrite Ez in H. rewrite (i64_id (Z.of_N e)) in H by lia. rewrite (i64_id (Z.of_N d + _)) in H by lia.
  rewrite (i64_id (Z.of_N d + Z.of_N (pb + pe) - Z.of_N e)) in H by lia. rewrite i64_id in H by lia.
  destruct (Z.ltb_spec (Z.of_N d + Z.of_N (pb + pe) - Z.of_N e - 1) 0) as [Hneg|Hpos]; [discriminate|].
  destruct (N.eqb_spec stride 0) as [E0|E0]; [discriminate|]. cbn [orb] in H. injection H as <-.
  rewrite kernel_count by (fold e; lia). fold e. f_equal. f_equal. lia.
Qed.

Lemma first_k_nth k l r i : first_k k l = IOk r -> (i < k)%nat -> nth i r 0 = to_usize (nth i l 0%Z).
Proof.
  unfold first_k. intros H Hi. destruct (Nat.ltb_spec (length l) k); [discriminate|]. injection H as <-.
  change 0 with (to_usize 0) at 1. rewrite map_nth. f_equal. rewrite <- (firstn_skipn k l) at 2. rewrite app_nth1; [reflexivity|]. rewrite firstn_length. lia.
Qed.
Lemma map_zero {A} (l : list A) : map (fun _ => 0) l = repeat 0 (length l).
Proof. induction l; cbn; congruence. Qed.
Lemma padding_config_eq k pads : padding_config k pads =
  if Nat.ltb (length pads) (2 * k) then IPanic
  else if existsb (fun z => z <? 0)%Z (firstn (2 * k) pads) then IPanic
  else IOk (map to_usize (firstn k pads), map to_usize (firstn k (skipn k pads))).
Proof.
  unfold padding_config, padding_conf. destruct (Nat.ltb_spec (length pads) (2 * k)) as [|HL]; [reflexivity|].
  destruct (existsb _ _) eqn:En; [reflexivity|]. destruct (forallb _ _) eqn:Ef; [|reflexivity]. cbn [ibind as_tuple]. do 2 f_equal.
  - symmetry. rewrite forallb_forall in Ef. transitivity (map (fun _ : Z => 0) (firstn k pads)).
    + apply map_ext_in. intros z Hz. specialize (Ef z). rewrite <- (firstn_skipn k (firstn (2 * k) pads)), firstn_firstn in Ef.
      replace (Nat.min k (2 * k)) with k in Ef by lia. specialize (Ef (in_or_app _ _ _ (or_introl Hz))). assert (z = 0%Z) by lia. subst z. reflexivity.
    + rewrite map_zero, firstn_length_le by lia. reflexivity.
  - symmetry. rewrite forallb_forall in Ef. transitivity (map (fun _ : Z => 0) (firstn k (skipn k pads))).
    + apply map_ext_in. intros z Hz. specialize (Ef z). rewrite firstn_skipn_comm in Hz.
      rewrite <- (firstn_skipn k (firstn (2 * k) pads)) in Ef. replace (k + k)%nat with (2 * k)%nat in Hz by lia.
      specialize (Ef (in_or_app _ _ _ (or_intror Hz))). assert (z = 0%Z) by lia. subst z. reflexivity.
    + rewrite map_zero, firstn_length_le by (rewrite skipn_length; lia). reflexivity.
Qed.
Lemma padding_nth k pads b e i : padding_config k pads = IOk (b, e) -> (i < k)%nat ->
  nth i b 0 = Z.to_N (nth i pads 0%Z) mod w64 /\ nth i e 0 = Z.to_N (nth (k + i) pads 0%Z) mod w64.
Proof.
  rewrite padding_config_eq. intros H Hi. destruct (Nat.ltb_spec (length pads) (2 * k)) as [|HL]; [discriminate|].
  destruct (existsb _ _) eqn:En; [discriminate|]. injection H as <- <-.
  assert (Hpos : forall j, (j < 2 * k)%nat -> (0 <= nth j pads 0)%Z).
  { intros j Hj. destruct (Z.lt_ge_cases (nth j pads 0%Z) 0) as [Hneg|]; [|assumption]. exfalso.
    assert (C : existsb (fun z => z <? 0)%Z (firstn (2 * k) pads) = true).
    { apply existsb_exists. exists (nth j pads 0%Z). split; [|lia]. rewrite <- (firstn_skipn (2 * k) pads) at 1. rewrite app_nth1 by (rewrite firstn_length; lia).
      apply nth_In. rewrite firstn_length. lia. }
    congruence. }
  assert (Hu : forall z, (0 <= z)%Z -> to_usize z = Z.to_N z mod w64).
  { intros z Hz. unfold to_usize, w64. apply N2Z.inj. rewrite N2Z.inj_mod. rewrite !Z2N.id; [reflexivity|lia|apply Z.mod_pos_bound; lia]. }
  split.
  - change 0 with (to_usize 0) at 1. rewrite map_nth. rewrite <- (Hu (nth i pads 0%Z)) by (apply Hpos; lia). f_equal.
    rewrite <- (firstn_skipn k pads) at 2. rewrite app_nth1; [reflexivity|rewrite firstn_length; lia].
  - change 0 with (to_usize 0) at 1. rewrite map_nth. rewrite <- (Hu (nth (k + i) pads 0%Z)) by (apply Hpos; lia). f_equal.
    rewrite <- (firstn_skipn k pads) at 2. rewrite app_nth2; [|rewrite firstn_length; lia]. rewrite firstn_length.
    replace (k + i - Nat.min k (length pads))%nat with i by lia.
    rewrite <- (firstn_skipn k (skipn k pads)) at 2. rewrite app_nth1; [reflexivity|]. rewrite firstn_length, skipn_length. lia.
Qed.

Definition ints_given (n : rnode) (key : string) (default l : list Z) : Prop :=
  as_attribute n key l \/ (get_attr n key = None /\ l = default).
(** The padding in force: given explicitly, or none. *)
Definition explicit_padding (k : nat) (n : rnode) (pads : list Z) : Prop :=
  ((get_attr n "auto_pad" = None \/ get_attr n "auto_pad" = Some (AString "NOTSET")) /\ ints_given n "pads" (repeat 0%Z (2 * k)) pads) \/
  (get_attr n "auto_pad" = Some (AString "VALID") /\ get_attr n "pads" = None /\ pads = repeat 0%Z (2 * k)).

Lemma ints_given_or n key d l : ints_given n key d l -> attr_i64s_or n key d = IOk l.
Proof. unfold attr_i64s_or. intros [E|[E ->]]; [unfold as_attribute in E|]; rewrite E; reflexivity. Qed.

Lemma to_usize_to_N z : (0 <= z < 18446744073709551616)%Z -> to_usize z = Z.to_N z.
Proof. intros H. apply N2Z.inj. rewrite to_usize_small by lia. lia. Qed.

Lemma conv_sound value k n i0 i1 rest x w out strides dilations pads ty :
  ninputs n = i0 :: i1 :: rest -> fits (aty i0) x -> fits (aty i1) w -> (forall v, value i1 = Some v -> cv_shape v = w) ->
  (get_attr n "kernel_shape" = None \/ as_attribute n "kernel_shape" (map Z.of_N (skipn 2 w))) ->
  ints_given n "strides" (repeat 1%Z k) strides -> ints_given n "dilations" (repeat 1%Z k) dilations -> explicit_padding k n pads ->
  (forall i, (i < k)%nat -> 0 < nth (2 + i) w 0 /\ small (nth (2 + i) w 0) /\
     (0 < nth i strides 0 < 4611686018427387904)%Z /\ (0 <= nth i dilations 0 < 4611686018427387904)%Z /\
     small (Z.to_N (nth i dilations 0%Z) * (nth (2 + i) w 0 - 1)) /\
     small (nth (2 + i) x 0 + Z.to_N (nth i pads 0%Z) + Z.to_N (nth (k + i) pads 0%Z))) ->
  conv_of k (map Z.to_N strides) (map Z.to_N dilations) (map Z.to_N (firstn k pads)) (map Z.to_N (skipn k pads)) x w out ->
  infer_conv value k n = IOk ty -> fits ty out.
Proof.
  intros Hi Fx Fw Hv Hks Hst Hdi Hpa Hb [Lx [Lw [Lo [O0 [O1 Os]]]]] H. unfold infer_conv in H. rewrite Hi in H.
  destruct (aty i0) as [| | |t] eqn:E0; try discriminate. destruct (aty i1) as [| | |wt] eqn:E1; try discriminate.
  destruct (conv_checks k n t wt) as [u| |]; try discriminate. cbn [ibind] in H.
  destruct (conv_config value k n) as [c| |] eqn:Ec; [| |discriminate].
  - cbn [ibind] in H. injection H as <-. split; [cbn; destruct Fx as [Fx _]; lia|]. cbn [tt_shape]. intros l El. injection El as <-.
    unfold conv_config in Ec. rewrite Hi in Ec. cbn [nth_error] in Ec. destruct (value i1) as [v|] eqn:Ev; [|discriminate]. specialize (Hv v eq_refl).
    destruct (Nat.eqb k 3 && _)%bool; [discriminate|].
    assert (Hkern : exists kern, attr_i64s_or n "kernel_shape" [] = IOk kern /\ (kern = [] \/ kern = map Z.of_N (skipn 2 w))).
    { unfold attr_i64s_or. destruct Hks as [E|E]; [exists []; rewrite E; auto|]. exists (map Z.of_N (skipn 2 w)). unfold as_attribute in E. rewrite E. auto. }
    destruct Hkern as [kern [Ek Hkern]]. rewrite Ek in Ec. cbn [ibind] in Ec.
    rewrite (ints_given_or _ _ _ _ Hst), (ints_given_or _ _ _ _ Hdi) in Ec. cbn [ibind] in Ec.
    assert (Hpads : attr_i64s_or n "pads" (repeat 0%Z (2 * k)) = IOk pads).
    { destruct Hpa as [[_ Hpa]|[_ [Hpa ->]]]; [apply ints_given_or; exact Hpa|]. unfold attr_i64s_or. rewrite Hpa. reflexivity. }
    rewrite Hpads in Ec. cbn [ibind] in Ec. destruct (attr_i64_or n "group" 1) as [g| |]; try discriminate. cbn [ibind] in Ec.
    destruct (match get_attr n "auto_pad" with Some a => parse_auto_pad a | None => IOk NotSet end) as [au| |]; try discriminate. cbn [ibind] in Ec.
    destruct (padding_config k pads) as [[pb pe]| |] eqn:Ep; try discriminate. cbn [ibind] in Ec.
    destruct (match kern with [] => _ | _ => _ end) as [ks| |] eqn:Eks in Ec; try discriminate. cbn [ibind] in Ec.
    destruct (first_k k strides) as [ss| |] eqn:Ess; try discriminate. cbn [ibind] in Ec.
    destruct (first_k k dilations) as [ds| |] eqn:Eds; try discriminate. cbn [ibind fst snd] in Ec. injection Ec as <-.
    cbn [cc_kernel cc_stride cc_dilation cc_begin cc_end].
    assert (Hw2 : forall i, (i < k)%nat -> nth i (skipn 2 w) 0 = nth (2 + i) w 0).
    { intros i Hi'. rewrite <- (firstn_skipn 2 w) at 2. rewrite app_nth2; rewrite firstn_length; [f_equal; lia|lia]. }
    assert (Hkn : forall i, (i < k)%nat -> nth i ks 0 = nth (2 + i) w 0).
    { intros i Hik. destruct (Hb i Hik) as [B1 [B2 _]]. rewrite <- (Hw2 i Hik). rewrite <- (Hw2 i Hik) in B1, B2.
      assert (G : nth i (map Z.of_N (skipn 2 w)) 0%Z = Z.of_N (nth i (skipn 2 w) 0)) by (change 0%Z with (Z.of_N 0); apply map_nth).
      destruct Hkern as [->| ->].
      - rewrite Hv in Eks. destruct (Nat.eqb (length w) (k + 2)); [|discriminate]. injection Eks as <-. reflexivity.
      - destruct (map Z.of_N (skipn 2 w)) as [|z zs] eqn:Em.
        + rewrite Hv in Eks. destruct (Nat.eqb (length w) (k + 2)); [|discriminate]. injection Eks as <-. reflexivity.
        + rewrite (first_k_nth k (z :: zs) ks i Eks Hik). rewrite G. unfold small in B2. rewrite to_usize_to_N by lia. lia. }
    destruct Fx as [Rx Dx].
    assert (HD : forall i d, dim_at (tt_shape t) i = Some d -> nth_error x i = Some d).
    { intros i d Hd. unfold dim_at in Hd. destruct (tt_shape t) as [lx|] eqn:Elx; [|discriminate]. destruct (nth_error lx i) as [o|] eqn:En; [|discriminate]. subst o.
      eapply fits_nth; [split; [exact Rx|rewrite Elx; exact Dx]|exact Elx|exact En]. }
    apply fits_dims_intro; [cbn; rewrite map_length, seq_length; lia|]. intros p d Hp. destruct p as [|[|p]].
    + cbn in Hp. injection Hp as Hp. apply HD in Hp. rewrite <- O0 in Hp. apply (nth_error_nth _ _ 0). exact Hp.
    + cbn in Hp. injection Hp as Hp. rewrite Hv in Hp. destruct w as [|c0 w']; [cbn in Lw; lia|]. injection Hp as <-. cbn in O1. apply (nth_error_nth _ _ 0). exact O1.
    + cbn [nth_error] in Hp.
      assert (Hpk : (p < k)%nat).
      { destruct (Nat.lt_ge_cases p k) as [C|C]; [exact C|]. rewrite (proj2 (nth_error_None _ _)) in Hp; [discriminate|rewrite map_length, seq_length; exact C]. }
      rewrite (map_nth_error _ _ _ (nth_error_nth' (seq 0 k) 0%nat ltac:(rewrite seq_length; exact Hpk))) in Hp. rewrite seq_nth in Hp by exact Hpk. cbn [Nat.add] in Hp.
      destruct (Hb p Hpk) as [B1 [B2 [B3 [B4 [B5 B6]]]]].
      rewrite (Hkn p Hpk) in Hp. rewrite (first_k_nth k strides ss p Ess Hpk), (first_k_nth k dilations ds p Eds Hpk) in Hp.
      destruct (padding_nth k pads pb pe p Ep Hpk) as [P1 P2]. rewrite P1, P2 in Hp.
      unfold small in B6. rewrite !N.mod_small in Hp by (unfold w64; lia). rewrite !to_usize_to_N in Hp by lia.
      destruct (dim_at (tt_shape t) (S (S p))) as [dx|] eqn:Edx; [|injection Hp as Hp; discriminate]. injection Hp as Hp.
      apply HD in Edx. pose proof (nth_error_nth _ _ 0 Edx) as Nx. cbn [Nat.add] in B6. rewrite Nx in B6.
      apply compute_spatial_ok in Hp; [|exact B1|exact B6|exact B5|unfold small; lia|exact B2].
      specialize (Os p Hpk). cbn [Nat.add] in Os. rewrite Nx in Os. apply (nth_error_nth _ _ 0) in Os. rewrite Os, Hp.
      assert (M : forall l i, nth i (map Z.to_N l) 0 = Z.to_N (nth i l 0%Z)) by (intros l i; change 0 with (Z.to_N 0%Z) at 1; apply map_nth).
      rewrite !M.
      assert (Hpl : (2 * k <= length pads)%nat).
      { rewrite padding_config_eq in Ep. destruct (Nat.ltb_spec (length pads) (2 * k)); [discriminate|assumption]. }
      f_equal. f_equal; [f_equal|].
      * f_equal. rewrite <- (firstn_skipn k pads) at 2. rewrite app_nth1; [reflexivity|rewrite firstn_length; lia].
      * f_equal. rewrite <- (firstn_skipn k pads) at 2. rewrite app_nth2 by (rewrite firstn_length; lia). f_equal. rewrite firstn_length. lia.
  - cbn [ibind] in H. injection H as <-. split; [cbn; destruct Fx as [Fx _]; lia|]. cbn [tt_shape]. intros l El. injection El as <-.
    destruct Fx as [Rx Dx].
    apply fits_dims_intro; [cbn; rewrite repeat_length; lia|]. intros p d Hp. destruct p as [|[|p]].
    + cbn in Hp. injection Hp as Hp. unfold dim_at in Hp. destruct (tt_shape t) as [lx|] eqn:Elx; [|discriminate]. destruct (nth_error lx 0) as [o|] eqn:En; [|discriminate]. subst o.
      apply (nth_error_nth _ _ 0). rewrite O0. eapply fits_nth; [split; [exact Rx|rewrite Elx; exact Dx]|exact Elx|exact En].
    + cbn in Hp. injection Hp as Hp. apply (nth_error_nth _ _ 0). rewrite O1.
      assert (HW : dim_at (tt_shape wt) 0 = Some d -> nth_error w 0 = Some d).
      { intros Hd. unfold dim_at in Hd. destruct (tt_shape wt) as [lw|] eqn:Elw; [|discriminate]. destruct (nth_error lw 0) as [o|] eqn:En; [|discriminate]. subst o.
        destruct Fw as [Rw Dw]. eapply fits_nth; [split; [exact Rw|exact Dw]|exact Elw|exact En]. }
      destruct (value i1) as [v|] eqn:Ev; [|apply HW; exact Hp]. rewrite (Hv v eq_refl) in Hp. destruct w as [|c0 w']; [cbn in Lw; lia|]. cbn. congruence.
    + cbn [nth_error] in Hp. apply nth_error_In in Hp. apply repeat_spec in Hp. discriminate.
Qed.

(** ** Padding *)
Lemma existsb_neg l : existsb (fun z => z <? 0)%Z l = false <-> Forall (fun z => 0 <= z)%Z l.
Proof.
  rewrite Forall_forall. split.
  - intros H z Hz. destruct (Z.lt_ge_cases z 0) as [C|C]; [|exact C]. exfalso.
    assert (existsb (fun z => z <? 0)%Z l = true) by (apply existsb_exists; exists z; split; [exact Hz|lia]). congruence.
  - intros H. destruct (existsb _ l) eqn:E; [|reflexivity]. apply existsb_exists in E. destruct E as [z [Hz C]]. specialize (H z Hz). lia.
Qed.
Lemma forallb_zero l : forallb (fun z => z =? 0)%Z l = true <-> Forall (fun z => z = 0)%Z l.
Proof. rewrite forallb_forall, Forall_forall. split; intros H z Hz; specialize (H z Hz); lia. Qed.

Lemma padding_conf_spec k pads : Forall i64_range pads -> (length pads = 2 * k)%nat ->
  (padding_conf k pads = IPanic <-> exists z, In z pads /\ (z < 0)%Z) /\
  (padding_conf k pads = IOk None <-> Forall (fun z => z = 0)%Z pads) /\
  (forall b e, padding_conf k pads = IOk (Some (b, e)) ->
     length b = k /\ length e = k /\
     forall i, (i < k)%nat -> Z.of_N (nth i b 0) = nth i pads 0%Z /\ Z.of_N (nth i e 0) = nth (k + i) pads 0%Z) /\
  padding_conf k pads <> IErr.
Proof.
  intros Hr HL. unfold padding_conf. destruct (Nat.ltb_spec (length pads) (2 * k)) as [|_]; [lia|]. rewrite <- HL, firstn_all.
  destruct (existsb _ pads) eqn:En.
  { apply existsb_exists in En. destruct En as [z [Hz C]]. repeat split; try discriminate.
    - intros _. exists z. split; [exact Hz|lia].
    - intros H. rewrite Forall_forall in H. specialize (H z Hz). lia. }
  apply existsb_neg in En. split; [|split; [|split]].
  - split; [destruct (forallb _ _); discriminate|]. intros [z [Hz C]]. rewrite Forall_forall in En. specialize (En z Hz). lia.
  - rewrite <- forallb_zero. destruct (forallb _ _); split; congruence.
  - intros b e H. destruct (forallb _ _); [discriminate|].
    assert (Eb : b = map to_usize (firstn k pads)) by congruence. assert (Ee : e = map to_usize (firstn k (skipn k pads))) by congruence.
    assert (H0 : forall l i, (i < length l)%nat -> (forall z, In z l -> In z pads) -> Z.of_N (nth i (map to_usize l) 0) = nth i l 0%Z).
    { intros l i Hi Hin. assert (M : nth i (map to_usize l) 0 = to_usize (nth i l 0%Z)) by (change 0 with (to_usize 0) at 1; apply map_nth).
      rewrite M. assert (I : In (nth i l 0%Z) pads) by (apply Hin; apply nth_In; exact Hi).
      rewrite Forall_forall in En, Hr. specialize (En _ I). specialize (Hr _ I). unfold i64_range in Hr. apply to_usize_small. lia. }
    assert (Lb : length (firstn k pads) = k) by (apply firstn_length_le; lia).
    assert (Le : length (firstn k (skipn k pads)) = k) by (apply firstn_length_le; rewrite skipn_length; lia).
    assert (I1 : forall z, In z (firstn k pads) -> In z pads) by (intros z Hz; rewrite <- (firstn_skipn k pads); apply in_or_app; left; exact Hz).
    assert (I3 : forall z, In z (skipn k pads) -> In z pads) by (intros z Hz; rewrite <- (firstn_skipn k pads); apply in_or_app; right; exact Hz).
    assert (I2 : forall z, In z (firstn k (skipn k pads)) -> In z pads).
    { intros z Hz. apply I3. rewrite <- (firstn_skipn k (skipn k pads)). apply in_or_app; left; exact Hz. }
    split; [rewrite Eb, map_length; exact Lb|]. split; [rewrite Ee, map_length; exact Le|]. intros i Hi.
    rewrite Eb, Ee, (H0 _ i), (H0 _ i) by (rewrite ?Lb, ?Le; assumption). split.
    + rewrite <- (firstn_skipn k pads) at 2. rewrite app_nth1; [reflexivity|lia].
    + rewrite <- (firstn_skipn k pads) at 2. rewrite app_nth2 by lia. rewrite Lb. replace (k + i - k)%nat with i by lia.
      rewrite <- (firstn_skipn k (skipn k pads)) at 2. rewrite app_nth1; [reflexivity|lia].
  - destruct (forallb _ _); discriminate.
Qed.

(** The pads of a Pad node: an attribute, or a constant second input. *)
Definition pads_given (value : arg -> option cval) (n : rnode) (pads : list Z) : Prop :=
  as_attribute n "pads" pads \/
  (get_attr n "pads" = None /\ as_attribute n "paddings" pads) \/
  (get_attr n "pads" = None /\ get_attr n "paddings" = None /\
   exists i1 v, nth_error (ninputs n) 1 = Some i1 /\ is_optional i1 = false /\ value i1 = Some v /\ cv_ints v = Some pads).

Lemma parse_pads_spec l : parse_pads l = (if existsb (fun z => z <? 0)%Z l then IErr else IOk (map to_usize l)).
Proof. reflexivity. Qed.

Lemma get_pads_spec value n i0 rest t pads : ninputs n = i0 :: rest -> (length (ninputs n) < 4)%nat -> aty i0 = TensorT t ->
  pads_given value n pads ->
  get_pads value n = ibind (parse_pads pads) (fun flat => ibind (validate_pads_len flat (tt_rank t)) (fun _ => IOk (PadStatic (onnx_pads_to_pairs flat)))).
Proof.
  intros Hi HL Ht Hg. unfold get_pads. destruct (Nat.leb_spec 4 (length (ninputs n))); [lia|]. unfold first_input. rewrite Hi. cbn [ibind]. rewrite Ht.
  destruct Hg as [E|[[E0 E]|[E0 [E1 [i1 [v [E2 [E3 [E4 E5]]]]]]]]]; unfold as_attribute in *.
  - rewrite E. reflexivity.
  - rewrite E0, E. reflexivity.
  - rewrite E0, E1. rewrite Hi in E2. rewrite E2, E3, E4, E5. reflexivity.
Qed.

Lemma pairs_nth flat k : (length flat = 2 * k)%nat ->
  length (onnx_pads_to_pairs flat) = k /\ forall i, (i < k)%nat -> nth i (onnx_pads_to_pairs flat) (0, 0) = (nth i flat 0, nth (k + i) flat 0).
Proof.
  intros HL. unfold onnx_pads_to_pairs. assert (E : (length flat / 2 = k)%nat) by (rewrite HL, Nat.mul_comm; apply Nat.div_mul; lia). rewrite E.
  split; [rewrite map_length, seq_length; reflexivity|]. intros i Hi.
  rewrite (nth_indep _ _ (nth 0 flat 0, nth (k + 0) flat 0)) by (rewrite map_length, seq_length; exact Hi).
  rewrite (map_nth (fun i => (nth i flat 0, nth (k + i) flat 0)) (seq 0 k) 0%nat i), seq_nth by exact Hi. reflexivity.
Qed.

Lemma get_pads_ok value n i0 rest t pads : ninputs n = i0 :: rest -> (length (ninputs n) < 4)%nat -> aty i0 = TensorT t ->
  pads_given value n pads -> Forall i64_range pads ->
  ((exists r, get_pads value n = IOk r) <-> (N.of_nat (length pads) = 2 * tt_rank t /\ Forall (fun z => 0 <= z)%Z pads)) /\
  forall r, get_pads value n = IOk r -> exists l, r = PadStatic l /\ N.of_nat (length l) = tt_rank t /\
    forall i, N.of_nat i < tt_rank t -> Z.of_N (fst (nth i l (0, 0))) = nth i pads 0%Z /\ Z.of_N (snd (nth i l (0, 0))) = nth (N.to_nat (tt_rank t) + i) pads 0%Z.
Proof.
  intros Hi HL Ht Hg Hr. rewrite (get_pads_spec value n i0 rest t pads Hi HL Ht Hg). unfold parse_pads.
  destruct (existsb _ pads) eqn:En.
  { cbn [ibind]. split; [|intros r C; discriminate]. split; [intros [r C]; discriminate|]. intros [_ C]. apply existsb_neg in C. congruence. }
  apply existsb_neg in En. cbn [ibind]. unfold validate_pads_len. rewrite map_length.
  destruct (N.eqb_spec (N.of_nat (length pads)) (tt_rank t * 2)) as [E|E]; cbn [ibind].
  - split; [split; [intros _; split; [lia|exact En]|eauto]|]. intros r C.
    assert (El : r = PadStatic (onnx_pads_to_pairs (map to_usize pads))) by congruence. clear C. exists (onnx_pads_to_pairs (map to_usize pads)). split; [exact El|].
    destruct (pairs_nth (map to_usize pads) (N.to_nat (tt_rank t))) as [P1 P2]; [rewrite map_length; lia|].
    split; [rewrite P1; lia|]. intros i Hi'. rewrite P2 by lia. cbn [fst snd].
    assert (H0 : forall j, (j < length pads)%nat -> Z.of_N (nth j (map to_usize pads) 0) = nth j pads 0%Z).
    { intros j Hj. assert (M : nth j (map to_usize pads) 0 = to_usize (nth j pads 0%Z)) by (change 0 with (to_usize 0) at 1; apply map_nth).
      rewrite M. assert (I : In (nth j pads 0%Z) pads) by (apply nth_In; exact Hj).
      rewrite Forall_forall in En, Hr. specialize (En _ I). specialize (Hr _ I). unfold i64_range in Hr. apply to_usize_small. lia. }
    split; apply H0; lia.
  - split; [|intros r C; discriminate]. split; [intros [r C]; discriminate|]. intros [C _]. lia.
Qed.
