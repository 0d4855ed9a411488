From Verif Require Import IR_Model Tensor_Spec Shapes_Spec IR_Proofs Tensor_Proofs Infer_Proofs ShapeOps_Model ShapeOps_Spec ShapeOps_Proofs AxisOps_Model AxisOps_Spec.
From Coq Require Import ZifyBool ZifyNat ZifyN.
Local Open Scope N_scope.

(** ** Chunks *)
Lemma chunks_length : forall k c r, length (chunks k c r) = k.
Proof. induction k; intros; cbn; auto. Qed.
Lemma chunks_zero : forall k c, chunks k c 0 = repeat 0 k.
Proof. induction k; intros c; cbn; [reflexivity|]. rewrite N.min_0_r, IHk. reflexivity. Qed.
Lemma total_repeat0 k : total (repeat 0 k) = 0.
Proof. induction k; cbn; auto. Qed.
Lemma chunks_total : forall k c r, r <= N.of_nat k * c -> total (chunks k c r) = r.
Proof.
  induction k as [|k IH]; intros c r H; cbn [chunks total fold_right]; [lia|].
  change (fold_right N.add 0 (chunks k c (r - c))) with (total (chunks k c (r - c))). rewrite IH; lia.
Qed.
Lemma chunks_form : forall k c r, exists full rest, chunks k c r = repeat c full ++ rest /\
  (rest = [] \/ exists last empties, rest = last :: repeat 0 empties /\ last <= c).
Proof.
  induction k as [|k IH]; intros c r; cbn [chunks].
  - exists 0%nat, []. auto.
  - destruct (N.le_gt_cases c r).
    + rewrite N.min_l by assumption. destruct (IH c (r - c)) as [f [rest [E H']]]. exists (S f), rest. rewrite E. split; [reflexivity|exact H'].
    + rewrite N.min_r by lia. replace (r - c) with 0 by lia. rewrite chunks_zero. exists 0%nat, (r :: repeat 0 k).
      split; [reflexivity|]. right. exists r, k. split; [reflexivity|lia].
Qed.
Lemma chunks_exact : forall k c r, N.of_nat k * c <= r -> r <= N.of_nat (S k) * c ->
  chunks (S k) c r = repeat c k ++ [r - N.of_nat k * c].
Proof.
  induction k as [|k IH]; intros c r H1 H2.
  - cbn. rewrite N.min_r by lia. f_equal. lia.
  - cbn [chunks]. rewrite N.min_l by lia. cbn [repeat app]. f_equal.
    change (N.min c (r - c) :: chunks k c (r - c - c)) with (chunks (S k) c (r - c)).
    rewrite IH by lia. do 2 f_equal. lia.
Qed.
Lemma div_ceil_spec d n : 0 < n -> d <= n * div_ceil d n /\ (forall c, d <= n * c -> div_ceil d n <= c).
Proof.
  intros Hn. unfold div_ceil. split.
  - pose proof (N.div_mod (d + (n - 1)) n ltac:(lia)) as E. pose proof (N.mod_lt (d + (n - 1)) n ltac:(lia)). nia.
  - intros c Hc. apply N.lt_succ_r. apply N.div_lt_upper_bound; [lia|]. nia.
Qed.
Lemma div_ceil_cases d n : 0 < n -> div_ceil d n = if d mod n =? 0 then d / n else d / n + 1.
Proof.
  intros Hn. unfold div_ceil. pose proof (N.div_mod d n ltac:(lia)) as E. pose proof (N.mod_lt d n ltac:(lia)) as Hl.
  set (q := d / n) in *. set (m := d mod n) in *. clearbody q m. subst d.
  destruct (N.eqb_spec m 0) as [->|Hm].
  - symmetry. apply (N.div_unique _ _ q (n - 1)); lia.
  - symmetry. apply (N.div_unique _ _ (q + 1) (m - 1)); lia.
Qed.

Lemma chunk_sizes_even d n : 0 < n -> even_chunks d n (chunk_sizes d n).
Proof.
  intros Hn. unfold chunk_sizes. destruct (div_ceil_spec d n Hn) as [H1 H2]. split; [rewrite chunks_length; lia|].
  split; [apply chunks_total; lia|]. destruct (chunks_form (N.to_nat n) (div_ceil d n) d) as [f [rest [E H]]].
  exists (div_ceil d n), f, rest. auto.
Qed.
Lemma chunk_sizes_onnx d n sizes : 0 < n -> onnx_even d n sizes -> chunk_sizes d n = sizes.
Proof.
  intros Hn H. unfold chunk_sizes. pose proof (div_ceil_cases d n Hn) as Ec.
  destruct (N.to_nat n) as [|k] eqn:Ek; [lia|].
  pose proof (N.div_mod d n ltac:(lia)) as E. pose proof (N.mod_lt d n ltac:(lia)) as Hl.
  destruct H as [[Hm ->]|[Hm [Hle ->]]].
  - rewrite Hm in Ec. cbn in Ec. rewrite Ec. rewrite chunks_exact by nia.
    replace (d - N.of_nat k * (d / n)) with (d / n) by nia.
    rewrite Ek. rewrite <- repeat_cons. reflexivity.
  - destruct (N.eqb_spec (d mod n) 0); [contradiction|]. rewrite Ec. rewrite chunks_exact by nia.
    replace (N.to_nat (n - 1)) with k by lia. do 2 f_equal. nia.
Qed.

(** ** Split *)
Definition split_input_type (ty : argty) : option tensor_type :=
  match ty with TensorT t => Some t | ShapeT r => Some (mkTT I64 1 (Some [Some r])) | _ => None end.

Lemma norm_axis_pos r (a : Z) : r < r63 -> (- Z.of_N r <= a < Z.of_N r)%Z ->
  to_usize (if (a <? 0)%Z then (a + Z.of_N r)%Z else a) = N.of_nat (position (N.to_nat r) a).
Proof.
  intros Hr Ha. rewrite <- (norm_axis_position r a Hr Ha). unfold norm_axis. destruct (a <? 0)%Z; reflexivity.
Qed.

Lemma sum_usize l : Forall (fun z => 0 <= z < 9223372036854775808)%Z l -> Forall2 (fun z d => Z.of_N d = z) l (map to_usize l).
Proof.
  induction 1 as [|z l Hz Hl IH]; cbn; constructor; [apply to_usize_small; lia|exact IH].
Qed.

Lemma at_index_ok {A} (l : list A) i x : at_index l i = IOk x -> nth_error l (N.to_nat i) = Some x.
Proof.
  unfold at_index. destruct (N.ltb i _); [|discriminate]. destruct (nth_error l (N.to_nat i)); [congruence|discriminate].
Qed.

Lemma split_even value n i0 t axis d c num :
  ninputs n = [i0] -> split_input_type (aty i0) = Some t -> get_attr n "split" = None ->
  attr_i64_or n "axis" 0 = IOk axis -> tt_rank t < r63 ->
  (get_attr n "num_outputs" = None \/ (get_attr n "num_outputs" = Some (AInt num) /\ num = Z.of_nat (length (noutputs n)))) ->
  N.of_nat (length (noutputs n)) < r63 ->
  (exists l, tt_shape t = Some l /\ nth_error l (position (N.to_nat (tt_rank t)) axis) = Some (Some d)) ->
  split_config value n = IOk c ->
  sp_axis c = N.of_nat (position (N.to_nat (tt_rank t)) axis) /\
  exists sizes, sp_sizes c = Some (SStatic sizes) /\
    even_chunks d (N.of_nat (length (noutputs n))) sizes /\
    forall l, onnx_even d (N.of_nat (length (noutputs n))) l -> sizes = l.
Proof.
  intros Hi Ht Hs Ha Hr Hnum Hout [l [Hl Hd]] H. unfold split_config, first_input in H. rewrite Hi in H. cbn [ibind] in H.
  assert (Et : match aty i0 with TensorT t => IOk t | ShapeT r => IOk (mkTT I64 1 (Some [Some r])) | _ => IErr end = IOk t).
  { unfold split_input_type in Ht. destruct (aty i0); congruence. }
  rewrite Et in H. cbn [ibind] in H. rewrite Ha in H. cbn [ibind] in H.
  set (num' := match get_attr n "num_outputs" with Some a => ibind (attr_i64 a) (fun z => IOk (Some (to_usize z))) | None => IOk None end) in H.
  assert (Hnum' : num' = IOk None \/ num' = IOk (Some (N.of_nat (length (noutputs n))))).
  { unfold num'. destruct Hnum as [->|[-> ->]]; [left; reflexivity|right]. cbn. do 2 f_equal. apply N2Z.inj. rewrite to_usize_small; unfold r63 in *; lia. }
  destruct (orb _ _) eqn:Eax in H; [destruct Hnum' as [E|E]; rewrite E in H; discriminate|].
  assert (Hrange : (- Z.of_N (tt_rank t) <= axis < Z.of_N (tt_rank t))%Z) by lia.
  set (ax := to_usize _) in H.
  assert (Eax' : ax = N.of_nat (position (N.to_nat (tt_rank t)) axis)) by (apply norm_axis_pos; assumption).
  rewrite Hl in H. rewrite Hs in H.
  assert (Edim : at_index l ax = IOk (Some d)).
  { unfold at_index. rewrite Eax', Nat2N.id, Hd. assert ((position (N.to_nat (tt_rank t)) axis < length l)%nat) by (apply nth_error_Some; congruence).
    destruct (N.ltb_spec (N.of_nat (position (N.to_nat (tt_rank t)) axis)) (N.of_nat (length l))); [reflexivity|lia]. }
  rewrite Edim in H.
  assert (Hfin : forall sz, 0 < N.of_nat (length (noutputs n)) -> sz = chunk_sizes d (N.of_nat (length (noutputs n))) ->
    exists sizes, Some (SStatic sz) = Some (SStatic sizes) /\ even_chunks d (N.of_nat (length (noutputs n))) sizes /\
      forall l, onnx_even d (N.of_nat (length (noutputs n))) l -> sizes = l).
  { intros sz Hp ->. eexists. split; [reflexivity|]. split; [apply chunk_sizes_even; exact Hp|].
    intros l0 Hl0. apply chunk_sizes_onnx; assumption. }
  destruct Hnum' as [E|E]; rewrite E in H; cbn [ibind] in H.
  - destruct (Nat.eqb_spec (length (noutputs n)) 0); [discriminate|]. cbn [ibind] in H. injection H as <-. cbn [sp_axis sp_sizes]. split; [exact Eax'|].
    apply Hfin; [lia|reflexivity].
  - destruct (N.eqb_spec (N.of_nat (length (noutputs n))) 0); [discriminate|].
    destruct (N.eqb_spec d 0); [discriminate|]. cbn [ibind] in H. injection H as <-. cbn [sp_axis sp_sizes]. split; [exact Eax'|].
    apply Hfin; [lia|reflexivity].
Qed.

(** Explicit sizes. *)
Definition sizes_given (value : arg -> option cval) (n : rnode) (l : list Z) : Prop :=
  (exists i0 i1 rest v, ninputs n = i0 :: i1 :: rest /\ value i1 = Some v /\ cv_dtype v = I64 /\ cv_ints v = Some l) \/
  ((length (ninputs n) <= 1)%nat /\ as_attribute n "split" l).

Lemma explicit_ok_spec l outs dim : explicit_ok l outs dim = true ->
  Forall (fun z => 0 <= z)%Z l /\ length l = outs /\ forall d, dim = Some d -> sumN (map to_usize l) mod w64 = d.
Proof.
  unfold explicit_ok. intros H. apply andb_prop in H. destruct H as [H H3]. apply andb_prop in H. destruct H as [H1 H2].
  split; [|split].
  - rewrite forallb_forall in H1. apply Forall_forall. intros z Hz. specialize (H1 z Hz). lia.
  - apply Nat.eqb_eq in H2. exact H2.
  - intros d ->. apply N.eqb_eq in H3. exact H3.
Qed.

Lemma split_explicit value n i0 rest t axis l c :
  ninputs n = i0 :: rest -> split_input_type (aty i0) = Some t ->
  attr_i64_or n "axis" 0 = IOk axis -> tt_rank t < r63 ->
  sizes_given value n l -> l <> [] ->
  split_config value n = IOk c ->
  sp_axis c = N.of_nat (position (N.to_nat (tt_rank t)) axis) /\
  sp_sizes c = Some (SStatic (map to_usize l)) /\ Forall (fun z => 0 <= z)%Z l /\
  length l = length (noutputs n) /\
  forall s d, tt_shape t = Some s -> nth_error s (position (N.to_nat (tt_rank t)) axis) = Some (Some d) ->
    sumN (map to_usize l) mod w64 = d.
Proof.
  intros Hi Ht Ha Hr Hg Hne H. unfold split_config, first_input in H. rewrite Hi in H. cbn [ibind] in H.
  assert (Et : match aty i0 with TensorT t => IOk t | ShapeT r => IOk (mkTT I64 1 (Some [Some r])) | _ => IErr end = IOk t).
  { unfold split_input_type in Ht. destruct (aty i0); congruence. }
  rewrite Et in H. cbn [ibind] in H. rewrite Ha in H. cbn [ibind] in H.
  destruct (match get_attr n "num_outputs" with Some a => ibind (attr_i64 a) (fun z => IOk (Some (to_usize z))) | None => IOk None end) as [num| |]; try discriminate.
  cbn [ibind] in H.
  destruct (orb _ _) eqn:Eax in H; [discriminate|].
  assert (Hrange : (- Z.of_N (tt_rank t) <= axis < Z.of_N (tt_rank t))%Z) by lia.
  set (ax := to_usize _) in H.
  assert (Eax' : ax = N.of_nat (position (N.to_nat (tt_rank t)) axis)) by (apply norm_axis_pos; assumption).
  destruct (match num with Some k => k =? 0 | None => false end); [discriminate|].
  set (dim := match tt_shape t with Some l => at_index l ax | None => IOk None end) in H.
  set (bn := match num with Some k => ibind dim _ | None => IOk None end) in H.
  destruct bn as [by_number| |]; try discriminate. cbn [ibind] in H.
  assert (Hdim : forall s d, tt_shape t = Some s -> nth_error s (position (N.to_nat (tt_rank t)) axis) = Some (Some d) -> dim = IOk (Some d)).
  { intros s d Es Ed. unfold dim. rewrite Es. unfold at_index. rewrite Eax', Nat2N.id, Ed.
    assert ((position (N.to_nat (tt_rank t)) axis < length s)%nat) by (apply nth_error_Some; congruence).
    destruct (N.ltb_spec (N.of_nat (position (N.to_nat (tt_rank t)) axis)) (N.of_nat (length s))); [reflexivity|lia]. }
  assert (Hmain : forall (o : ires (option split_sizes)), 
     o = ibind dim (fun d => if explicit_ok l (length (noutputs n)) d then IOk (Some (SStatic (map to_usize l))) else IErr) ->
     ibind o (fun sizes => ibind (match sizes with
               | Some _ => IOk sizes
               | None => ibind dim (fun d =>
                   match d with
                   | Some d => if Nat.eqb (length (noutputs n)) 0 then IPanic
                               else IOk (Some (SStatic (chunk_sizes d (N.of_nat (length (noutputs n))))))
                   | None => IOk None end)
               end) (fun sizes =>
        IOk (mkSplit ax sizes (match sizes with
                                 | Some _ => None
                                 | None => Some (match num with Some k => k | None => N.of_nat (length (noutputs n)) end) end)))) = IOk c ->
     sp_axis c = N.of_nat (position (N.to_nat (tt_rank t)) axis) /\
     sp_sizes c = Some (SStatic (map to_usize l)) /\ Forall (fun z => 0 <= z)%Z l /\
     length l = length (noutputs n) /\
     forall s d, tt_shape t = Some s -> nth_error s (position (N.to_nat (tt_rank t)) axis) = Some (Some d) ->
       sumN (map to_usize l) mod w64 = d).
  { intros o -> Hc. destruct dim as [dd| |] eqn:Ed; try discriminate. cbn [ibind] in Hc.
    destruct (explicit_ok l (length (noutputs n)) dd) eqn:Ee; [|discriminate]. cbn [ibind] in Hc. injection Hc as <-. cbn [sp_axis sp_sizes].
    destruct (explicit_ok_spec _ _ _ Ee) as [E1 [E2 E3]]. repeat split; auto. intros s d Es Ed'. apply E3.
    specialize (Hdim s d Es Ed'). congruence. }
  destruct Hg as [[j0 [i1 [r [v [Hi1 [Hv [Hdt Hz]]]]]]]|[Hlen Hat]].
  - rewrite Hi in Hi1. injection Hi1 as -> ->.
    destruct (aty i1) as [|a|a|t1]; try discriminate.
    destruct (negb (tt_rank t1 =? 1)); [discriminate|]. destruct (negb (dtype_beq (tt_dtype t1) I64)); [discriminate|].
    rewrite Hv in H. assert (Ez : cv_i64s v = Some l) by (unfold cv_i64s; rewrite Hdt; exact Hz). rewrite Ez in H.
    destruct l as [|z l]; [congruence|]. eapply Hmain; [reflexivity|exact H].
  - rewrite Hi in Hlen. destruct rest; [|cbn in Hlen; lia]. unfold as_attribute in Hat. rewrite Hat in H. cbn [attr_i64s ibind] in H.
    destruct l as [|z l]; [congruence|]. eapply Hmain; [reflexivity|exact H].
Qed.

(** Types of the outputs. *)
Lemma set_nth_nth {A} (x : A) : forall l i k, nth_error (set_nth l i x) k = if Nat.eqb k i then match nth_error l i with Some _ => Some x | None => None end else nth_error l k.
Proof.
  induction l as [|y l IH]; intros [|i] [|k]; cbn; try reflexivity.
  - destruct (Nat.eqb k i); reflexivity.
  - apply IH.
Qed.
Lemma set_nth_length {A} (x : A) : forall l i, length (set_nth l i x) = length l.
Proof. induction l; intros [|i]; cbn; auto. Qed.

Lemma set_nth_fits l s ax d o : fits_dims l s -> replaced ax d s o -> fits_dims (set_nth l ax (Some d)) o.
Proof.
  intros F [HL [Hd Ho]]. destruct (fits_dims_elim _ _ F) as [FL FN]. apply fits_dims_intro.
  - rewrite set_nth_length. lia.
  - intros p c Hp. rewrite set_nth_nth in Hp. destruct (Nat.eqb_spec p ax) as [->|Hne].
    + destruct (nth_error l ax); [|discriminate]. injection Hp as <-. erewrite nth_error_nth; [|exact Hd]. reflexivity.
    + specialize (FN p c Hp). rewrite <- FN. specialize (Ho p Hne).
      destruct (nth_error o p) as [x|] eqn:E.
      * rewrite (nth_error_nth o p 0 E). symmetry in Ho. rewrite (nth_error_nth s p 0 Ho). reflexivity.
      * apply nth_error_None in E. symmetry in Ho. apply nth_error_None in Ho. rewrite !nth_overflow by lia. reflexivity.
Qed.

Lemma split_types value n i0 rest t axis s sizes outs tys :
  ninputs n = i0 :: rest -> split_input_type (aty i0) = Some t -> attr_i64_or n "axis" 0 = IOk axis ->
  tt_rank t < r63 -> (- Z.of_N (tt_rank t) <= axis < Z.of_N (tt_rank t))%Z ->
  fits (aty i0) s -> split_of (position (N.to_nat (tt_rank t)) axis) sizes s outs -> length outs = length (noutputs n) ->
  (forall l, sizes_given value n l -> map to_usize l = sizes) ->
  infer_split value n = IOk tys -> Forall2 fits tys outs.
Proof.
  intros Hi Ht Ha Hr Hax Hf [_ Hof] Hlen Hg H.
  assert (Hft : fits_tt t s).
  { unfold split_input_type in Ht. destruct (aty i0); try discriminate; injection Ht as <-; [|exact Hf].
    cbn in Hf. subst s. split; [reflexivity|]. cbn. intros l E. injection E as <-. constructor; [right; reflexivity|constructor]. }
  unfold infer_split, first_input in H. rewrite Hi in H. cbn [ibind] in H.
  assert (Et : match aty i0 with TensorT t => IOk t | ShapeT r => IOk (mkTT I64 1 (Some [Some r])) | _ => IErr end = IOk t).
  { unfold split_input_type in Ht. destruct (aty i0); congruence. }
  rewrite Et in H. cbn [ibind] in H.
  set (T := mkTT (tt_dtype t) (tt_rank t)) in *.
  assert (Hout : forall o, In o outs -> fits (TensorT (T None)) o).
  { intros o Ho. apply In_nth_error in Ho. destruct Ho as [k Hk].
    destruct (Forall2_in_r _ _ _ _ Hof (nth_error_In _ _ Hk)) as [d [_ [HL _]]].
    split; [cbn; destruct Hft; lia|]. cbn. discriminate. }
  assert (Hplain : Forall2 fits (map (fun _ => TensorT (T None)) (noutputs n)) outs).
  { clear H. revert Hlen Hout. generalize (noutputs n) as ns. clear. revert outs.
    intros outs ns. revert outs. induction ns; intros [|o outs] Hl Ho; cbn in *; try discriminate; constructor.
    - apply Ho. left; reflexivity.
    - apply IHns; [lia|]. intros o' Ho'. apply Ho. right; exact Ho'. }
  destruct (match rest with
    | [] => match get_attr n "split" with Some a => ibind (attr_i64s a) (fun l => IOk (Some (map to_usize l))) | None => IOk None end
    | i1 :: _ => IOk (match value i1 with Some v => option_map (map to_usize) (cv_i64s v) | None => None end)
    end) as [szs| |] eqn:Es; [|discriminate|discriminate].
  assert (H' : match szs, tt_shape t with
    | Some l, Some s =>
        ibind (attr_i64_or n "axis" 0) (fun a =>
        let axis := if (a <? 0)%Z then to_usize (a + Z.of_N (tt_rank t)) else to_usize a in
        fold_right (fun io acc => ibind acc (fun r =>
            match nth_error l (fst io) with
            | Some d => if N.ltb axis (N.of_nat (length s))
                        then IOk (TensorT (T (Some (set_nth s (N.to_nat axis) (Some d)))) :: r)
                        else IPanic
            | None => IOk (TensorT (T None) :: r)
            end)) (IOk []) (enumerate (noutputs n)))
    | _, _ => IOk (map (fun _ => TensorT (T None)) (noutputs n))
    end = IOk tys).
  { exact H. }
  clear H. destruct szs as [l|]; [|injection H' as <-; exact Hplain].
  destruct (tt_shape t) as [sh|] eqn:Esh; [|injection H' as <-; exact Hplain].
  assert (Hl : l = sizes).
  { destruct rest as [|i1 rest].
    - destruct (get_attr n "split") as [a|] eqn:Ea; [|discriminate]. destruct a; try discriminate. cbn in Es. injection Es as <-.
      apply Hg. right. split; [rewrite Hi; cbn; lia|exact Ea].
    - destruct (value i1) as [v|] eqn:Ev; [|discriminate]. unfold cv_i64s in Es. destruct (dtype_beq (cv_dtype v) I64) eqn:Ed; [|discriminate].
      destruct (cv_ints v) as [zs|] eqn:Ez; [|discriminate]. cbn in Es. injection Es as <-. apply Hg. left.
      exists i0, i1, rest, v. repeat split; auto. destruct (cv_dtype v); try discriminate; reflexivity. }
  subst l. rewrite Ha in H'. cbn [ibind] in H'. cbv zeta in H'.
  assert (Eax : (if (axis <? 0)%Z then to_usize (axis + Z.of_N (tt_rank t)) else to_usize axis) = N.of_nat (position (N.to_nat (tt_rank t)) axis)).
  { rewrite <- (norm_axis_pos (tt_rank t) axis Hr Hax). destruct (axis <? 0)%Z; reflexivity. }
  rewrite Eax in H'. rewrite Nat2N.id in H'. set (ax := position (N.to_nat (tt_rank t)) axis) in *.
  destruct Hft as [Hrk Hsh]. specialize (Hsh sh Esh).
  assert (G : forall (ns : list arg) i tys' (outs' : list (list N)),
    fold_right (fun io acc => ibind acc (fun r =>
            match nth_error sizes (fst io) with
            | Some d => if N.ltb (N.of_nat ax) (N.of_nat (length sh))
                        then IOk (TensorT (T (Some (set_nth sh ax (Some d)))) :: r)
                        else IPanic
            | None => IOk (TensorT (T None) :: r)
            end)) (IOk []) (enumerate_from i ns) = IOk tys' ->
    length outs' = length ns -> (forall k o, nth_error outs' k = Some o -> nth_error outs (i + k) = Some o) ->
    Forall2 fits tys' outs').
  { induction ns as [|a ns IH]; intros i tys' outs' He Hl Ho; cbn [enumerate_from fold_right] in He.
    - injection He as <-. destruct outs'; [constructor|discriminate].
    - destruct outs' as [|o outs']; [discriminate|].
      destruct (fold_right _ (IOk []) (enumerate_from (S i) ns)) as [r| |] eqn:Er; try discriminate. cbn [ibind fst] in He.
      assert (Hrest : Forall2 fits r outs').
      { apply (IH (S i) r outs' Er); [cbn in Hl; lia|]. intros k o' Hk. replace (S i + k)%nat with (i + S k)%nat by lia. apply Ho. exact Hk. }
      assert (Hoi : nth_error outs i = Some o) by (rewrite <- (Nat.add_0_r i); apply Ho; reflexivity).
      destruct (nth_error sizes i) as [d|] eqn:Ed.
      + destruct (N.ltb _ _); [|discriminate]. injection He as <-. constructor; [|exact Hrest].
        assert (Hrep : replaced ax d s o).
        { clear -Hof Ed Hoi. revert i Ed Hoi. induction Hof; intros [|i] E1 E2; cbn in *; try discriminate; [|eauto]. injection E1 as <-. injection E2 as <-. assumption. }
        split; [cbn; destruct Hrep; lia|]. cbn. intros l0 El0. injection El0 as <-. apply (set_nth_fits sh s ax d o Hsh Hrep).
      + injection He as <-. constructor; [|exact Hrest]. apply Hout. eapply nth_error_In. exact Hoi. }
  apply (G (noutputs n) 0%nat tys outs H' Hlen). intros k o Hk. exact Hk.
Qed.

Lemma split_noop axis sizes s outs out : split_of axis sizes s outs -> outs = [out] -> out = s.
Proof.
  intros [Hs Hof] ->. inversion Hof as [|d o ? ? [HL [Hd Ho]] Hr]; subst. inversion Hr; subst.
  cbn in Hs. rewrite N.add_0_r in Hs. apply nth_error_ext. intros k. destruct (Nat.eq_dec k axis) as [->|Hk]; [congruence|apply Ho; exact Hk].
Qed.

(** ** Concat *)
(** A scalar operand stands for a vector with one element. *)
Definition as_vector (ty : argty) (s : list N) : Prop := if is_scalar ty then s = [1] else fits ty s.
Definition operand (value : arg -> option cval) (a : arg) (s : list N) : Prop :=
  as_vector (aty a) s /\ forall v, value a = Some v -> cv_shape v = s.
Definition length_known (value : arg -> option cval) (a : arg) : Prop :=
  forall t, aty a = TensorT t -> static_shape_known t <> None \/ value a <> None.

Lemma all_known_fits : forall l s x, fits_dims l s -> all_known l = Some x -> x = s.
Proof.
  intros l s x F. revert x. induction F as [|o d l s Ho F IH]; intros x H; cbn in H; [congruence|].
  destruct o as [e|]; [|discriminate]. destruct (all_known l) as [y|]; [|discriminate]. injection H as <-.
  destruct Ho as [Ho|Ho]; [discriminate|]. injection Ho as ->. f_equal. apply IH. reflexivity.
Qed.
Lemma static_known_fits t s x : fits_tt t s -> static_shape_known t = Some x -> x = s.
Proof.
  intros [_ Hd] H. unfold static_shape_known in H. destruct (tt_shape t) as [l|]; [|discriminate].
  exact (all_known_fits l s x (Hd l eq_refl) H).
Qed.
Lemma first_of_nth s d : first_of s = IOk d -> d = nth 0 s 0.
Proof. destruct s; cbn; congruence. Qed.

Lemma rank1_len_ok value a t s d : aty a = TensorT t -> operand value a s -> length_known value a ->
  rank1_len value a t = IOk d -> d = nth 0 s 0.
Proof.
  intros Ht [Hv Hc] Hk H. unfold as_vector in Hv. rewrite Ht in Hv. cbn in Hv. unfold rank1_len in H.
  destruct (static_shape_known t) as [x|] eqn:E.
  - rewrite (static_known_fits t s x Hv E) in H. apply first_of_nth. exact H.
  - destruct (value a) as [v|] eqn:Ev; [|destruct (Hk t Ht); congruence]. rewrite (Hc v eq_refl) in H. apply first_of_nth. exact H.
Qed.
Lemma rank1_len_ok' value a t s d : aty a = TensorT t -> operand value a s -> length_known value a ->
  rank1_len' value a t = IOk d -> d = nth 0 s 0.
Proof.
  intros Ht [Hv Hc] Hk H. unfold as_vector in Hv. rewrite Ht in Hv. cbn in Hv. unfold rank1_len' in H.
  destruct (value a) as [v|] eqn:Ev.
  - rewrite (Hc v eq_refl) in H. apply first_of_nth. exact H.
  - destruct (static_shape_known t) as [x|] eqn:E; [|destruct (Hk t Ht); congruence].
    rewrite (static_known_fits t s x Hv E) in H. apply first_of_nth. exact H.
Qed.

Lemma total_len_ok value f ins ss d :
  (forall a s d, In a ins -> operand value a s -> f a = IOk d -> d = nth 0 s 0) ->
  Forall2 (operand value) ins ss -> total_len f ins = IOk d -> d = total (map (fun s => nth 0 s 0) ss).
Proof.
  intros Hf F. revert d. induction F as [|a s ins ss Ha F IH]; intros d H; cbn [total_len] in H.
  - injection H as <-. reflexivity.
  - destruct (f a) as [x| |] eqn:Ef; try discriminate. cbn [ibind] in H.
    destruct (total_len f ins) as [y| |] eqn:Et; try discriminate. cbn [ibind] in H. injection H as <-.
    cbn. rewrite (Hf a s x (or_introl eq_refl) Ha Ef). f_equal. apply IH; [|reflexivity].
    intros a' s' d' Ha'. apply Hf. right. exact Ha'.
Qed.

Definition mixed (ins : list arg) : bool := existsb (fun a => is_scalar (aty a) || is_shape (aty a))%bool ins.

Lemma concat_sound value n ss axis out ty :
  ninputs n <> [] -> Forall2 (operand value) (ninputs n) ss -> concat_of axis ss out ->
  (mixed (ninputs n) = true -> forall a, In a (ninputs n) -> length_known value a) ->
  infer_concat value n = IOk ty -> fits ty out.
Proof.
  intros Hne F [Hss [Hax [Hall Hsum]]] Hk H. unfold infer_concat in H.
  destruct (iexpect (concat_axis n)) as [ax| |]; try discriminate. cbn [ibind] in H.
  set (ins := ninputs n) in *.
  assert (Hvec : forall a s, In a ins -> operand value a s -> (is_scalar (aty a) || is_shape (aty a) = true)%bool -> length s = 1%nat).
  { intros a s _ [Hv _] Hb. unfold as_vector in Hv. destruct (aty a); cbn in *; try discriminate; subst s; reflexivity. }
  assert (H1 : mixed ins = true -> length out = 1%nat /\ axis = 0%nat /\ forall d, d = total (map (fun s => nth 0 s 0) ss) -> out = [d]).
  { intros Hm. unfold mixed in Hm. apply existsb_exists in Hm. destruct Hm as [a [Ha Hb]].
    destruct (Forall2_in_left _ _ _ _ F Ha) as [s [Hs Ho]]. pose proof (Hvec a s Ha Ho Hb) as Hl.
    destruct (Hall s Hs) as [Hlo _]. assert (length out = 1%nat) by lia. assert (axis = 0%nat) by lia. subst axis.
    split; [assumption|]. split; [reflexivity|]. intros d ->. destruct out as [|o [|? ?]]; cbn in *; try discriminate. congruence. }
  destruct (existsb (fun a => is_scalar (aty a)) ins) eqn:Esc.
  - assert (Hm : mixed ins = true).
    { unfold mixed. apply existsb_exists in Esc. destruct Esc as [a [Ha Hb]]. apply existsb_exists. exists a. rewrite Hb. auto. }
    destruct (total_len (scalar_concat_len value) ins) as [tot| |] eqn:Et; try discriminate. cbn [ibind] in H.
    assert (Htot : tot = total (map (fun s => nth 0 s 0) ss)).
    { apply (total_len_ok value (scalar_concat_len value) ins ss tot); [|exact F|exact Et].
      intros a s d Ha Ho Hd. unfold scalar_concat_len in Hd. destruct (aty a) as [x|x|r|t] eqn:Ety.
      - injection Hd as <-. destruct Ho as [Ho _]. unfold as_vector in Ho. rewrite Ety in Ho. cbn in Ho. subst s. reflexivity.
      - injection Hd as <-. destruct Ho as [Ho _]. unfold as_vector in Ho. rewrite Ety in Ho. cbn in Ho. subst s. reflexivity.
      - injection Hd as <-. destruct Ho as [Ho _]. unfold as_vector in Ho. rewrite Ety in Ho. cbn in Ho. subst s. reflexivity.
      - destruct (tt_rank t =? 1); [|discriminate]. eapply rank1_len_ok; eauto. }
    destruct (H1 Hm) as [_ [_ Ho]]. specialize (Ho tot Htot). subst out.
    destruct (existsb (fun a => is_shape (aty a)) ins).
    + injection H as <-. reflexivity.
    + destruct (forallb _ ins); [|discriminate]. injection H as <-. split; [reflexivity|]. cbn. intros l E. injection E as <-.
      constructor; [right; reflexivity|constructor].
  - unfold first_input in H. fold ins in H. destruct ins as [|i0 ins'] eqn:Ei; [congruence|]. cbn [ibind] in H.
    set (L := i0 :: ins') in *.
    destruct (if (_ && _)%bool then _ else IOk tt) as [u| |] eqn:Eg in H; try discriminate. cbn [ibind] in H. clear Eg u.
    destruct (existsb (fun a => is_shape (aty a)) L && existsb (fun a => is_rank1 (aty a)) L)%bool eqn:Eb.
    + apply andb_prop in Eb. destruct Eb as [Esh _].
      assert (Hm : mixed L = true).
      { unfold mixed. apply existsb_exists in Esh. destruct Esh as [a [Ha Hb]]. apply existsb_exists. exists a. rewrite Hb. rewrite orb_true_r. auto. }
      destruct (total_len (shape_concat_len value) L) as [tot| |] eqn:Et; try discriminate. cbn [ibind] in H. injection H as <-.
      assert (Htot : tot = total (map (fun s => nth 0 s 0) ss)).
      { apply (total_len_ok value (shape_concat_len value) L ss tot); [|exact F|exact Et].
        intros a s d Ha Ho Hd. unfold shape_concat_len in Hd. destruct (aty a) as [x|x|r|t] eqn:Ety; try discriminate.
        - injection Hd as <-. destruct Ho as [Ho _]. unfold as_vector in Ho. rewrite Ety in Ho. cbn in Ho. subst s. reflexivity.
        - destruct (tt_rank t =? 1); [|discriminate]. eapply rank1_len_ok'; eauto. }
      destruct (H1 Hm) as [_ [_ Ho]]. specialize (Ho tot Htot). subst out. reflexivity.
    + destruct (aty i0) as [x|x|r|t] eqn:Ety; try discriminate.
      * destruct (total_len _ L) as [tot| |] eqn:Et; try discriminate. cbn [ibind] in H. injection H as <-.
        assert (Hm : mixed L = true) by (unfold mixed, L; cbn; rewrite Ety; reflexivity).
        assert (Htot : tot = total (map (fun s => nth 0 s 0) ss)).
        { eapply (total_len_ok value); [|exact F|exact Et].
          intros a s d Ha Ho Hd. cbv beta in Hd. destruct (aty a) as [y|y|r'|t'] eqn:Ety'; try discriminate.
          injection Hd as <-. destruct Ho as [Ho _]. unfold as_vector in Ho. rewrite Ety' in Ho. cbn in Ho. subst s. reflexivity. }
        destruct (H1 Hm) as [_ [_ Ho]]. specialize (Ho tot Htot). subst out. reflexivity.
      * injection H as <-. inversion F as [|? s0 ? ss' Ho F']; subst. destruct (Hall s0 (or_introl eq_refl)) as [Hl _].
        destruct Ho as [Ho _]. unfold as_vector in Ho. rewrite Ety in Ho. cbn in Ho. destruct Ho as [Ho _]. split; [cbn; lia|]. cbn. discriminate.
Qed.

Lemma concat_axis_ok n i0 rest axis r :
  ninputs n = i0 :: rest -> get_attr n "axis" = Some (AInt axis) ->
  (match aty i0 with TensorT t => tt_rank t = r | ShapeT _ => r = 1 | _ => False end) ->
  r < r63 -> (- Z.of_N r <= axis < Z.of_N r)%Z ->
  concat_axis n = IOk (N.of_nat (position (N.to_nat r) axis)).
Proof.
  intros Hi Ha Hr Hw Hx. unfold concat_axis. rewrite Ha. cbn [attr_i64 ibind]. unfold first_input. rewrite Hi. cbn [ibind].
  rewrite <- (norm_axis_pos r axis Hw Hx). destruct (aty i0) as [| |k|t]; try contradiction; subst r; reflexivity.
Qed.

Lemma concat_noop axis s out : concat_of axis [s] out -> out = s.
Proof.
  intros [_ [Hax [Hall Hs]]]. destruct (Hall s (or_introl eq_refl)) as [Hl Ho]. cbn in Hs. rewrite N.add_0_r in Hs.
  apply nth_error_ext. intros k. destruct (Nat.eq_dec k axis) as [->|Hk].
  - rewrite Hs. symmetry. rewrite (nth_error_nth' s 0) by lia. reflexivity.
  - symmetry. apply Ho. exact Hk.
Qed.

(** ** Slice *)
Local Open Scope Z_scope.
Lemma ceil_succ p n : 0 < p -> 0 <= n -> (n + 1 + p - 1) / p = (n + p - 1) / p + (if n mod p =? 0 then 1 else 0).
Proof.
  intros Hp Hn. pose proof (Z.div_mod n p ltac:(lia)) as E. pose proof (Z.mod_pos_bound n p Hp) as B.
  set (q := n / p) in *. set (m := n mod p) in *. clearbody q m. subst n.
  destruct (Z.eqb_spec m 0) as [->|Hm].
  - transitivity (q + 1); [symmetry; apply (Z.div_unique_pos _ _ (q + 1) 0); lia|].
    f_equal. apply (Z.div_unique_pos _ _ q (p - 1)); lia.
  - transitivity (q + 1); [symmetry; apply (Z.div_unique_pos _ _ (q + 1) m); lia|].
    rewrite Z.add_0_r. apply (Z.div_unique_pos _ _ (q + 1) (m - 1)); lia.
Qed.
Lemma count_multiples p a : 0 < p -> forall n,
  Z.of_nat (length (filter (fun i => (Z.of_nat i - Z.of_nat a) mod p =? 0) (seq a n))) = (Z.of_nat n + p - 1) / p.
Proof.
  intros Hp. induction n as [|n IH].
  - cbn. symmetry. apply Z.div_small. lia.
  - rewrite seq_S, filter_app, app_length, Nat2Z.inj_add, IH. rewrite Nat2Z.inj_succ. unfold Z.succ. rewrite ceil_succ by lia. f_equal.
    cbn [filter]. replace (Z.of_nat (a + n) - Z.of_nat a) with (Z.of_nat n) by lia. destruct (Z.of_nat n mod p =? 0); reflexivity.
Qed.
Lemma filter_none {A} (f : A -> bool) l : (forall x, In x l -> f x = false) -> filter f l = [].
Proof. induction l as [|x l IH]; intros H; cbn; [reflexivity|]. rewrite (H x (or_introl eq_refl)). apply IH. intros y Hy. apply H. right. exact Hy. Qed.

Lemma slice_size_pos d start stop step : 0 < step ->
  let a := clamp 0 (Z.of_N d) (from_end (Z.of_N d) start) in let b := clamp 0 (Z.of_N d) (from_end (Z.of_N d) stop) in
  Z.of_N (slice_size d start stop step) = (Z.max 0 (b - a) + step - 1) / step.
Proof.
  intros Hs a b. unfold slice_size. rewrite nat_N_Z.
  set (f := fun i => taken (Z.of_N d) start stop step (Z.of_nat i)).
  assert (Ef : forall i, f i = ((a <=? Z.of_nat i) && (Z.of_nat i <? b) && ((Z.of_nat i - a) mod step =? 0))%bool).
  { intros i. unfold f, taken. destruct (Z.ltb_spec 0 step); [reflexivity|lia]. }
  assert (Ha : 0 <= a <= Z.of_N d) by (unfold a, clamp; lia). assert (Hb : 0 <= b <= Z.of_N d) by (unfold b, clamp; lia).
  clearbody a b f. destruct (Z.le_gt_cases b a).
  - rewrite (filter_none f); [rewrite Z.max_l by lia; cbn; symmetry; apply Z.div_small; lia|].
    intros i _. rewrite Ef. lia.
  - rewrite Z.max_r by lia. set (na := Z.to_nat a). set (nb := Z.to_nat (b - a)).
    replace (N.to_nat d) with (na + (nb + (N.to_nat d - na - nb)))%nat by lia.
    rewrite seq_app, filter_app, seq_app, filter_app, !app_length.
    rewrite (filter_none f (seq 0 na)) by (intros i Hi; apply in_seq in Hi; rewrite Ef; lia).
    rewrite (filter_none f (seq (0 + na + nb) _)) by (intros i Hi; apply in_seq in Hi; rewrite Ef; lia).
    cbn [length Nat.add]. rewrite Nat.add_0_r.
    replace (b - a) with (Z.of_nat nb) by lia. rewrite <- (count_multiples step na Hs nb).
    do 2 f_equal. apply filter_ext_in. intros i Hi. apply in_seq in Hi. rewrite Ef.
    replace (Z.of_nat na) with a by lia. destruct ((Z.of_nat i - a) mod step =? 0); lia.
Qed.

Lemma i64_id z : - 9223372036854775808 <= z < 9223372036854775808 -> i64 z = z.
Proof. intros H. unfold i64. rewrite Z.mod_small by lia. lia. Qed.

Lemma shape_slice_len_ok start stop step r : 0 < step < 4611686018427387904 -> (Z.of_N r < 4611686018427387904) ->
  i64_range start -> i64_range stop ->
  shape_slice_len start stop step r = slice_size r start stop step.
Proof.
  intros Hs Hr H1 H2. apply N2Z.inj. rewrite slice_size_pos by lia. unfold shape_slice_len, i64_range in *.
  set (a := clamp 0 (Z.of_N r) (from_end (Z.of_N r) start)). set (b := clamp 0 (Z.of_N r) (from_end (Z.of_N r) stop)).
  replace (if start <? 0 then Z.max (Z.of_N r + start) 0 else Z.min start (Z.of_N r)) with a
    by (unfold a, clamp, from_end; destruct (Z.ltb_spec start 0); lia).
  replace (if (stop =? 9223372036854775807) || (stop >=? Z.of_N r) then Z.of_N r else if stop <? 0 then Z.max (Z.of_N r + stop) 0 else Z.min stop (Z.of_N r)) with b.
  2:{ unfold b, clamp, from_end. destruct (Z.eqb_spec stop 9223372036854775807); cbn [orb].
      - destruct (Z.ltb_spec stop 0); lia.
      - destruct (Z.geb_spec stop (Z.of_N r)); destruct (Z.ltb_spec stop 0); lia. }
  assert (Ha : 0 <= a <= Z.of_N r) by (unfold a, clamp; lia). assert (Hb : 0 <= b <= Z.of_N r) by (unfold b, clamp; lia).
  clearbody a b. rewrite (Z.max_comm (b - a)). set (w := Z.max 0 (b - a)). assert (Hw : 0 <= w <= Z.of_N r) by lia. clearbody w.
  rewrite (Z.abs_eq step) by lia. rewrite (i64_id step) by lia.
  assert (Hq : 0 <= (w + step - 1) / step <= w).
  { split; [apply Z.div_pos; lia|]. destruct (Z.eq_dec w 0) as [->|]; [rewrite Z.div_small by lia; lia|].
    apply Z.div_le_upper_bound; nia. }
  destruct (Z.eqb_spec step 1) as [->|].
  - rewrite to_usize_small by lia. replace (w + 1 - 1) with w by lia. rewrite Z.div_1_r. reflexivity.
  - rewrite (i64_id (w + step)) by lia. rewrite i64_id by lia. rewrite Z.quot_div_nonneg by lia. apply to_usize_small. lia.
Qed.

(** The parameters of a Slice with one cut. *)
Definition one_cut_given (value : arg -> option cval) (n : rnode) (start stop step : Z) : Prop :=
  ((length (ninputs n) = 1)%nat /\ as_attribute n "starts" [start] /\ as_attribute n "ends" [stop] /\
   (get_attr n "axes" = None \/ exists l, as_attribute n "axes" l) /\ step = 1) \/
  (exists i0 i1 i2 v1 v2, nth_error (ninputs n) 0 = Some i0 /\ nth_error (ninputs n) 1 = Some i1 /\ nth_error (ninputs n) 2 = Some i2 /\
     value i1 = Some v1 /\ cv_ints v1 = Some [start] /\ value i2 = Some v2 /\ cv_ints v2 = Some [stop] /\
     (step = 1 /\ nth_error (ninputs n) 4 = None \/
      exists i4 v4, nth_error (ninputs n) 4 = Some i4 /\ value i4 = Some v4 /\ cv_ints v4 = Some [step])).

Lemma slice_shape_sound value n i0 rest r axis start stop step out ty :
  ninputs n = i0 :: rest -> aty i0 = ShapeT r -> one_cut_given value n start stop step ->
  0 < step < 4611686018427387904 -> (Z.of_N r < 4611686018427387904) -> i64_range start -> i64_range stop ->
  slice_of [mkCut axis start stop step] [r] out -> infer_slice value n = IOk ty -> fits ty out.
Proof.
  intros Hi Ht Hg Hs Hr H1 H2 Hof H.
  assert (Hout : out = [slice_size r start stop step]).
  { destruct Hof as [[Hv _] [_ [Hl Hk]]]. destruct (Hk 0%nat r eq_refl) as [Hk' _].
    assert (Hp : position (length [r]) axis = 0%nat) by (unfold position; cbn [length]; rewrite Z.mod_1_r; reflexivity).
    specialize (Hk' _ (or_introl eq_refl) Hp). cbn in Hk'. destruct out as [|o [|? ?]]; cbn in Hl; try lia. cbn in Hk'. congruence. }
  enough (Hty : ty = ShapeT (shape_slice_len start stop step r)).
  { subst ty out. cbn. rewrite shape_slice_len_ok by assumption. reflexivity. }
  unfold infer_slice in H. destruct Hg as [[Hlen [As [Ae [Aa ->]]]]|[j0 [i1 [i2 [v1 [v2 [E0 [E1 [E2 [V1 [Z1 [V2 [Z2 Hst]]]]]]]]]]]]].
  - rewrite Hi in Hlen. destruct rest; [|cbn in Hlen; lia]. unfold slice_config in H. rewrite Hi in H. unfold as_attribute in *. rewrite As, Ae in H. cbn [attr_i64s ibind] in H.
    destruct (match get_attr n "axes" with Some c => attr_i64s c | None => IOk (default_axes (length [start])) end) as [ax| |] eqn:Ex; try discriminate.
    cbn [ibind] in H. unfold first_input in H. rewrite Hi in H. cbn [ibind] in H. rewrite Ht in H. cbn [sl_starts sl_ends sl_steps length repeat] in H. congruence.
  - rewrite Hi in E0. cbn in E0. injection E0 as <-. destruct rest as [|j1 rest]; [rewrite Hi in E1; discriminate|].
    unfold slice_config in H. rewrite Hi in H. unfold get_slice_input in H. rewrite E1, V1, Z1 in H. cbn [ibind] in H.
    rewrite E2, V2, Z2 in H. cbn [ibind] in H.
    destruct (match nth_error (ninputs n) 3 with Some a => _ | None => IOk None end) as [ax| |] eqn:Ex in H; try discriminate. cbn [ibind] in H.
    destruct Hst as [[-> E4]|[i4 [v4 [E4 [V4 Z4]]]]]; rewrite E4 in H.
    + cbn [ibind] in H. cbn [repeat length mem_z existsb Z.eqb orb] in H. unfold first_input in H. rewrite Hi in H. cbn [ibind] in H. rewrite Ht in H. cbn [sl_starts sl_ends sl_steps] in H. congruence.
    + rewrite V4, Z4 in H. cbn [ibind] in H. destruct (mem_z 0 [step]); [discriminate|]. unfold first_input in H. rewrite Hi in H. cbn [ibind] in H. rewrite Ht in H. cbn [sl_starts sl_ends sl_steps] in H. congruence.
Qed.

(** The claimed type is the input's, so only what the operator leaves alone is right. *)
Definition right_at (t : tensor_type) (out : list N) (k : nat) : Prop :=
  forall l d, tt_shape t = Some l -> nth_error l k = Some (Some d) -> nth_error out k = Some d.

Lemma fits_nth t s k l d : fits_tt t s -> tt_shape t = Some l -> nth_error l k = Some (Some d) -> nth_error s k = Some d.
Proof.
  intros [_ H] E Hk. specialize (H l E). destruct (fits_dims_elim _ _ H) as [HL HN]. specialize (HN k d Hk).
  assert (k < length s)%nat by (rewrite <- HL; apply nth_error_Some; congruence). rewrite (nth_error_nth' s 0%N) by assumption. congruence.
Qed.

Lemma slice_tensor_sound value n i0 rest t cuts s out ty :
  ninputs n = i0 :: rest -> aty i0 = TensorT t -> fits (aty i0) s -> slice_of cuts s out -> infer_slice value n = IOk ty ->
  exists t', ty = TensorT t' /\ tt_rank t' = N.of_nat (length out) /\
    forall k, ~ named (length s) (map c_axis cuts) k -> right_at t' out k.
Proof.
  intros Hi Ht Hf Hof H. unfold infer_slice in H. destruct (slice_config value n) as [c| |]; try discriminate. cbn [ibind] in H.
  unfold first_input in H. rewrite Hi in H. cbn [ibind] in H. rewrite Ht in H, Hf. injection H as <-. exists t. split; [reflexivity|].
  destruct Hof as [_ [_ [Hl Hk]]]. split; [destruct Hf as [Hf _]; lia|]. intros k Hn l d El Ed.
  pose proof (fits_nth t s k l d Hf El Ed) as Hs. apply (Hk k d Hs). exact Hn.
Qed.

Lemma tile_sound n i0 rest t reps s out ty :
  ninputs n = i0 :: rest -> aty i0 = TensorT t -> fits (aty i0) s -> tile_of reps s out -> infer_same n = IOk ty ->
  exists t', ty = TensorT t' /\ tt_rank t' = N.of_nat (length out) /\
    forall k, nth_error reps k = Some 1%N -> right_at t' out k.
Proof.
  intros Hi Ht Hf [Hr [Hl Hk]] H. unfold infer_same, first_input in H. rewrite Hi in H. cbn [ibind] in H. rewrite Ht in H, Hf. injection H as <-.
  exists t. split; [reflexivity|]. split; [destruct Hf as [Hf _]; lia|]. intros k Hn l d El Ed.
  pose proof (fits_nth t s k l d Hf El Ed) as Hs. rewrite (Hk k d 1%N Hs Hn). f_equal. apply N.mul_1_r.
Qed.

Lemma pad_sound n i0 rest t pads s out ty :
  ninputs n = i0 :: rest -> aty i0 = TensorT t -> fits (aty i0) s -> pad_of pads s out -> infer_same n = IOk ty ->
  exists t', ty = TensorT t' /\ tt_rank t' = N.of_nat (length out) /\
    forall k, nth k pads 0 = 0 -> nth (k + length s) pads 0 = 0 -> right_at t' out k.
Proof.
  intros Hi Ht Hf [Hr [Hl Hk]] H. unfold infer_same, first_input in H. rewrite Hi in H. cbn [ibind] in H. rewrite Ht in H, Hf. injection H as <-.
  exists t. split; [reflexivity|]. split; [destruct Hf as [Hf _]; lia|]. intros k P1 P2 l d El Ed.
  pose proof (fits_nth t s k l d Hf El Ed) as Hs. destruct (Hk k d Hs) as [o [Ho Eo]]. rewrite Ho. f_equal. lia.
Qed.

Definition pads_given (value : arg -> option cval) (n : rnode) (l : list Z) : Prop :=
  as_attribute n "pads" l \/ (get_attr n "pads" = None /\ as_attribute n "paddings" l) \/
  (get_attr n "pads" = None /\ get_attr n "paddings" = None /\
   exists i1 v, nth_error (ninputs n) 1 = Some i1 /\ value i1 = Some v /\ cv_ints v = Some l).
Lemma pad_noop value n pads s out : pads_given value n pads -> pad_of pads s out -> pad_is_noop value n = IOk true -> out = s.
Proof.
  intros Hg [Hp [Hl Hk]] H.
  assert (Hz : forallb (Z.eqb 0) pads = true).
  { unfold pad_is_noop, as_attribute in *. destruct Hg as [E|[[E1 E2]|[E1 [E2 [i1 [v [E3 [Ev Ez]]]]]]]].
    - rewrite E in H. cbn in H. congruence.
    - rewrite E1, E2 in H. cbn in H. congruence.
    - rewrite E1, E2, E3 in H. cbn [ibind] in H. rewrite Ev in H. unfold cv_i64s in H. rewrite Ez in H. destruct (asrc i1); try discriminate; destruct (dtype_beq (cv_dtype v) I64); congruence. }
  rewrite forallb_forall in Hz.
  assert (Hn : forall k, nth k pads 0 = 0).
  { intros k. destruct (Nat.lt_ge_cases k (length pads)); [|apply nth_overflow; assumption].
    specialize (Hz _ (nth_In pads 0 H0)). lia. }
  apply nth_error_ext. intros k. destruct (nth_error s k) as [d|] eqn:E.
  - destruct (Hk k d E) as [o [Ho Eo]]. rewrite Ho. f_equal. rewrite !Hn in Eo. lia.
  - apply nth_error_None in E. apply nth_error_None. lia.
Qed.

(** ** Expand *)
Local Open Scope N_scope.
Lemma nth_rev_def (l : list N) k d : (k < length l)%nat -> nth k (rev l) d = nth (length l - S k) l d.
Proof. intros H. apply rev_nth. exact H. Qed.

Lemma expand_result s req out : bcast_of [s; req] out -> (length s <= length req)%nat ->
  (forall k, nth k (rev req) 0 = 1 -> nth k (rev s) 1 = 1) -> out = req.
Proof.
  intros [Hle [Hex Hk]] Hl Hone.
  assert (Hlen : length out = length req).
  { destruct Hex as [->|[x [[<-|[<-|[]]] Hx]]].
    - specialize (Hle req (or_intror (or_introl eq_refl))). cbn in *. lia.
    - specialize (Hle req (or_intror (or_introl eq_refl))). lia.
    - lia. }
  rewrite <- (rev_involutive out), <- (rev_involutive req). f_equal. apply nth_ext with 0 0; [rewrite !rev_length; exact Hlen|].
  intros k Hk'. rewrite rev_length in Hk'. destruct (Hk k Hk') as [H1 H2].
  assert (Er : nth k (rev req) 1 = nth k (rev req) 0) by (apply nth_indep; rewrite rev_length; lia).
  destruct (H1 req (or_intror (or_introl eq_refl))) as [E|E]; [|congruence].
  rewrite Er in E. destruct H2 as [H2|[x [[<-|[<-|[]]] Hx]]]; [congruence| |congruence].
  rewrite (Hone k E) in Hx. congruence.
Qed.

Lemma expand_sound value n i0 i1 rest req s out ty v :
  ninputs n = i0 :: i1 :: rest -> value i1 = Some v -> cv_ints v = Some req -> Forall (fun z => 0 <= z < 9223372036854775808)%Z req ->
  bcast_of [s; map Z.to_N req] out -> (length s <= length req)%nat ->
  (forall k, nth k (rev (map Z.to_N req)) 0 = 1 -> nth k (rev s) 1 = 1) ->
  infer_expand value n = IOk ty -> fits ty out.
Proof.
  intros Hi Hv Hz Hr Hof Hl Hone H. assert (Eo : out = map Z.to_N req) by (apply (expand_result s); [exact Hof|rewrite map_length; exact Hl|exact Hone]).
  unfold infer_expand in H. rewrite Hi in H.
  destruct (match aty i1 with TensorT t => negb (tt_rank t =? 1) || negb (dtype_beq (tt_dtype t) I64) | ShapeT _ => false | _ => true end); [discriminate|].
  rewrite Hv, Hz in H. cbn [ibind] in H. destruct (match aty i0 with TensorT t => _ | _ => _ end) as [d|]; [|discriminate]. injection H as <-. subst out.
  split; [cbn; rewrite map_length; reflexivity|]. cbn. intros l E. injection E as <-.
  clear -Hr. induction Hr as [|z l Hz Hl IH]; cbn; constructor; [right|exact IH]. f_equal. apply N2Z.inj. rewrite to_usize_small by lia. lia.
Qed.

Lemma expand_runtime_sound value n i0 i1 o0 orest req s out ty :
  ninputs n = [i0; i1] -> noutputs n = o0 :: orest -> value i1 = None ->
  fits (aty i1) [N.of_nat (length req)] -> (forall t, aty o0 = TensorT t -> tt_rank t = 0 \/ fits_tt t out) ->
  bcast_of [s; req] out -> (length s <= length req)%nat ->
  infer_expand value n = IOk ty -> fits ty out.
Proof.
  intros Hi Ho Hv Hf Hot [Hle [Hex _]] Hl H.
  assert (Hlen : length out = length req).
  { destruct Hex as [->|[x [[<-|[<-|[]]] Hx]]].
    - specialize (Hle req (or_intror (or_introl eq_refl))). cbn in *. lia.
    - specialize (Hle req (or_intror (or_introl eq_refl))). lia.
    - lia. }
  unfold infer_expand in H. rewrite Hi in H.
  destruct (match aty i1 with TensorT t => negb (tt_rank t =? 1) || negb (dtype_beq (tt_dtype t) I64) | ShapeT _ => false | _ => true end); [discriminate|].
  rewrite Hv in H. cbn [ibind] in H. destruct (match aty i0 with TensorT t => _ | _ => _ end) as [d|]; [|discriminate].
  assert (G : forall r, r = N.of_nat (length out) -> fits (TensorT (mkTT d r None)) out).
  { intros r ->. split; [reflexivity|]. cbn. discriminate. }
  destruct (aty i1) as [x|x|r|t]; try discriminate.
  - cbn [ibind] in H. injection H as <-. apply G. cbn in Hf. assert (N.of_nat (length req) = r) by congruence. lia.
  - destruct Hf as [_ Hf]. unfold first_output in H. rewrite Ho in H. cbn [ibind] in H.
    assert (Hfb : match aty o0 with TensorT o => if 0 <? tt_rank o then IOk (tt_rank o) else IErr | _ => IErr end = IErr \/
      match aty o0 with TensorT o => if 0 <? tt_rank o then IOk (tt_rank o) else IErr | _ => IErr end = IOk (N.of_nat (length out))).
    { destruct (aty o0) as [| | |o]; auto. destruct (N.ltb_spec 0 (tt_rank o)); auto. destruct (Hot o eq_refl) as [?|[E _]]; [lia|]. right. congruence. }
    destruct (tt_shape t) as [[|[e|] sh]|].
    + destruct Hfb as [E|E]; rewrite E in H; try discriminate. cbn [ibind] in H. injection H as <-. apply G. reflexivity.
    + cbn [ibind] in H. injection H as <-. apply G. specialize (Hf _ eq_refl). inversion Hf as [|? ? ? ? Hd _]; subst.
      destruct Hd as [Hd|Hd]; [discriminate|]. assert (e = N.of_nat (length req)) by congruence. lia.
    + destruct Hfb as [E|E]; rewrite E in H; try discriminate. cbn [ibind] in H. injection H as <-. apply G. reflexivity.
    + destruct Hfb as [E|E]; rewrite E in H; try discriminate. cbn [ibind] in H. injection H as <-. apply G. reflexivity.
Qed.

Lemma dims_beq_known : forall a b s o, dims_beq a b = true -> (forall x, In x a -> x <> None) -> fits_dims a s -> fits_dims b o -> s = o.
Proof.
  unfold dims_beq. intros a b s o H Hk Fa. revert b o H. induction Fa as [|x d a s Hx Fa IH]; intros [|y b] o H Fb; cbn in H; try discriminate.
  - inversion Fb; reflexivity.
  - inversion Fb as [|? e ? o' Hy Fb']; subst. destruct x as [x|]; [|destruct (Hk None (or_introl eq_refl) eq_refl)].
    destruct y as [y|]; [|cbn in H; rewrite andb_false_r in H; discriminate].
    destruct Hx as [Hx|Hx]; [discriminate|]. destruct Hy as [Hy|Hy]; [discriminate|]. injection Hx as ->. injection Hy as ->.
    apply andb_prop in H. destruct H as [H1 H2]. apply andb_prop in H2. destruct H2 as [H2 H3]. apply N.eqb_eq in H2. subst e. f_equal.
    apply (IH ltac:(intros z Hz; apply Hk; right; exact Hz) b o'); [|exact Fb']. rewrite H1, H3. reflexivity.
Qed.
Lemma expand_noop n i0 rest o0 orest t l s out :
  ninputs n = i0 :: rest -> noutputs n = o0 :: orest -> aty i0 = TensorT t -> tt_shape t = Some l -> (forall x, In x l -> x <> None) ->
  fits (aty i0) s -> fits (aty o0) out -> expand_is_noop n = IOk true -> out = s.
Proof.
  intros Hi Ho Ht El Hk Hs Hout H. unfold expand_is_noop, first_input, first_output in H. rewrite Hi, Ho in H. cbn [ibind] in H.
  rewrite Ht in H, Hs. destruct (aty o0) as [| | |b] eqn:Eo; try discriminate. rewrite El in H. destruct (tt_shape b) as [y|] eqn:Eb; [|discriminate].
  injection H as H. symmetry. apply (dims_beq_known l y s out H Hk); [apply Hs; exact El|apply Hout; exact Eb].
Qed.
