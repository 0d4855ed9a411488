From Verif Require Import IR_Model Tensor_Spec Shapes_Spec Infer_Proofs ShapeOps_Model ShapeOps_Spec.
From Coq Require Import ZifyBool ZifyNat ZifyN.
Local Open Scope N_scope.

Lemma to_usize_small z : (0 <= z < 18446744073709551616)%Z -> Z.of_N (to_usize z) = z.
Proof. intros H. unfold to_usize. rewrite Z.mod_small by exact H. lia. Qed.

(** ** Products *)
Lemma wmul_mod a b : wmul (a mod w64) b = (a * b) mod w64.
Proof. unfold wmul. rewrite N.mul_mod_idemp_l by (unfold w64; lia). reflexivity. Qed.

Lemma known_product_acc : forall l a,
  fold_left (fun acc d => match acc, d with Some a, Some x => Some (wmul a x) | _, _ => None end) l a =
  match a with
  | None => None
  | Some a0 => fold_left (fun acc d => match acc, d with Some a, Some x => Some (wmul a x) | _, _ => None end) l (Some a0)
  end.
Proof.
  induction l as [|d l IH]; intros [a|]; cbn; try reflexivity. rewrite IH. reflexivity.
Qed.

Lemma known_product_fits l s p : fits_dims l s -> known_product l = Some p -> p = prodN s mod w64.
Proof.
  unfold known_product. intros F.
  assert (G : forall a, fold_left (fun acc d => match acc, d with Some a, Some x => Some (wmul a x) | _, _ => None end) l (Some (a mod w64)) = Some p ->
    p = (a * prodN s) mod w64).
  { induction F as [|o d l s Ho F IH]; intros a H; cbn in H |- *.
    - rewrite N.mul_1_r. congruence.
    - destruct o as [x|].
      + rewrite wmul_mod in H. apply IH in H. destruct Ho as [Ho|Ho]; [discriminate|]. injection Ho as ->.
        rewrite H, N.mul_assoc. reflexivity.
      + rewrite known_product_acc in H. discriminate. }
  intros H. specialize (G 1). rewrite N.mul_1_l in G. apply G. exact H.
Qed.

Definition unopt (l : list (option N)) : list N := map (fun o => match o with Some x => x | None => 0 end) l.
Lemma known_product_all : forall l p, known_product l = Some p -> (forall o, In o l -> o <> None) /\ p = prodN (unopt l) mod w64.
Proof.
  intros l p H.
  assert (A : forall o, In o l -> o <> None).
  { unfold known_product in H. revert H. generalize (Some 1) as a. induction l as [|d l IH]; intros a H o Ho; [destruct Ho|].
    cbn in H. rewrite known_product_acc in H. destruct a as [a|], d as [d|]; try discriminate.
    destruct Ho as [<-|Ho]; [discriminate|]. eapply IH; eassumption. }
  split; [exact A|]. apply (known_product_fits l (unopt l) p); [|exact H].
  clear H. induction l as [|d l IH]; constructor.
  - destruct d as [d|]; [right; reflexivity|left; reflexivity].
  - apply IH. intros o Ho. apply A. right; exact Ho.
Qed.

(** ** Flatten *)
Lemma fits_dims_firstn n l s : fits_dims l s -> fits_dims (firstn n l) (firstn n s).
Proof. intros H. revert n. induction H; intros [|n]; cbn; constructor; auto. apply IHForall2. Qed.
Lemma fits_dims_skipn n l s : fits_dims l s -> fits_dims (skipn n l) (skipn n s).
Proof. intros H. revert n. induction H; intros [|n]; cbn; try constructor; auto. Qed.

Lemma flatten_sound n t axis s out ty i0 rest :
  ninputs n = i0 :: rest -> aty i0 = TensorT t ->
  (get_attr n "axis" = Some (AInt axis) \/ (get_attr n "axis" = None /\ axis = 1%Z)) ->
  fits (aty i0) s -> flatten_of axis s out -> Forall (fun d => d < w64) out -> tt_rank t < 9223372036854775808 ->
  infer_flatten n = IOk ty -> fits ty out.
Proof.
  intros Hi Ht Ha Hf [Hax Hout] Hw Hr H. cbv zeta in Hout.
  unfold infer_flatten, first_input in H. rewrite Hi in H. cbn [ibind] in H. rewrite Ht in H, Hf.
  destruct Hf as [Hlen Hd].
  destruct (N.ltb (tt_rank t) 2); [discriminate|].
  unfold flatten_axis, first_input in H. rewrite Hi in H. cbn [ibind] in H. rewrite Ht in H.
  destruct (forallb _ _); [|discriminate].
  assert (Eax : attr_i64_or n "axis" 1 = IOk axis).
  { unfold attr_i64_or. destruct Ha as [->|[-> ->]]; reflexivity. }
  rewrite Eax in H. cbn [ibind iexpect] in H.
  assert (Ea : to_usize (if (axis <? 0)%Z then (axis + Z.of_N (tt_rank t))%Z else axis) =
               N.of_nat (Z.to_nat (if (axis <? 0)%Z then (axis + Z.of_nat (length s))%Z else axis))).
  { assert (Z.of_N (tt_rank t) = Z.of_nat (length s)) by lia. rewrite H0.
    apply Z_of_N_inj || apply N2Z.inj. rewrite to_usize_small; destruct (Z.ltb_spec axis 0); lia. }
  set (a := Z.to_nat (if (axis <? 0)%Z then (axis + Z.of_nat (length s))%Z else axis)) in *.
  destruct (tt_shape t) as [l|].
  - specialize (Hd l eq_refl). rewrite Ea, Nat2N.id in H.
    destruct (N.leb _ _); [|discriminate]. injection H as <-. cbn. split; [rewrite Hout; reflexivity|].
    cbn. intros l0 E. injection E as <-. rewrite Hout in *. inversion Hw as [|? ? W1 W2]; subst. inversion W2; subst.
    constructor; [|constructor; [|constructor]].
    + destruct (known_product (firstn a l)) as [p|] eqn:Ep; [right|left; reflexivity]. f_equal.
      rewrite (known_product_fits _ _ _ (fits_dims_firstn a _ _ Hd) Ep). apply N.mod_small. assumption.
    + destruct (known_product (skipn a l)) as [p|] eqn:Ep; [right|left; reflexivity]. f_equal.
      rewrite (known_product_fits _ _ _ (fits_dims_skipn a _ _ Hd) Ep). apply N.mod_small. assumption.
  - injection H as <-. split; [rewrite Hout; reflexivity|]. cbn. intros l E. injection E as <-. rewrite Hout.
    repeat constructor.
Qed.

Lemma flatten_count axis s out : flatten_of axis s out -> prodN out = prodN s.
Proof.
  intros [_ H]. cbv zeta in H. rewrite H. cbn. rewrite N.mul_1_r.
  generalize (Z.to_nat (if (axis <? 0)%Z then (axis + Z.of_nat (length s))%Z else axis)) as a. clear.
  intros a. revert s. induction a as [|a IH]; intros s; [cbn [firstn skipn prodN]; lia|]. destruct s as [|d s]; [reflexivity|].
  cbn [firstn skipn prodN]. rewrite <- (IH s). lia.
Qed.

(** ** Transpose *)
Lemma pick_spec s : forall perm r, pick s perm = Some r ->
  length r = length perm /\ forall k p, nth_error perm k = Some p -> nth_error r k = nth_error s (N.to_nat (to_usize p)) /\ to_usize p < N.of_nat (length s).
Proof.
  induction perm as [|p perm IH]; intros r H; cbn in H.
  - injection H as <-. split; [reflexivity|]. intros [|k] p H; discriminate.
  - destruct (N.ltb_spec (to_usize p) (N.of_nat (length s))) as [Hp|Hp]; [|discriminate].
    destruct (nth_error s (N.to_nat (to_usize p))) as [d|] eqn:E; [|discriminate].
    destruct (pick s perm) as [ds|]; [|discriminate]. injection H as <-. destruct (IH ds eq_refl) as [I1 I2].
    split; [cbn; lia|]. intros [|k] q Hq; cbn in *; [injection Hq as <-; auto|apply I2; exact Hq].
Qed.

Definition perm_of (n : rnode) (rank : N) (perm : list Z) : Prop :=
  get_attr n "perm" = Some (AInts perm) \/
  (get_attr n "perm" = None /\ perm = rev (map Z.of_nat (seq 0 (N.to_nat rank)))).

Lemma transpose_perm_of n i0 rest t perm : ninputs n = i0 :: rest -> aty i0 = TensorT t ->
  perm_of n (tt_rank t) perm -> transpose_perm n = IOk perm.
Proof.
  intros Hi Ht Hp. unfold transpose_perm, first_input. rewrite Hi. cbn. rewrite Ht.
  destruct Hp as [->|[-> ->]]; reflexivity.
Qed.

Lemma transpose_sound n i0 rest t perm s out ty :
  ninputs n = i0 :: rest -> aty i0 = TensorT t -> perm_of n (tt_rank t) perm ->
  tt_rank t < w64 ->
  fits (aty i0) s -> transpose_of perm s out ->
  infer_transpose n = IOk ty -> fits ty out.
Proof.
  intros Hi Ht Hp Hw Hf [Hperm [Hlen Hout]] H. unfold infer_transpose in H.
  rewrite (transpose_perm_of n i0 rest t perm Hi Ht Hp) in H. cbn [iexpect ibind] in H.
  unfold first_input in H. rewrite Hi in H. cbn [ibind] in H. rewrite Ht in H, Hf. destruct Hf as [Hr Hd].
  destruct (N.eqb_spec (N.of_nat (length perm)) (tt_rank t)) as [El|El]; [|discriminate]. cbn [negb] in H.
  destruct (tt_shape t) as [l|].
  - specialize (Hd l eq_refl). destruct (pick l perm) as [r|] eqn:Ek; [|discriminate]. injection H as <-.
    destruct (pick_spec _ _ _ Ek) as [K1 K2]. split; [cbn; lia|]. cbn. intros l0 E. injection E as <-.
    apply fits_dims_intro; [lia|]. intros k c Hc.
    assert (Hk : exists p, nth_error perm k = Some p).
    { destruct (nth_error perm k) eqn:E; [eauto|]. apply nth_error_None in E. assert (k < length r)%nat by (apply nth_error_Some; congruence). lia. }
    destruct Hk as [p Hpk]. destruct (K2 k p Hpk) as [K3 K4]. specialize (Hout k p Hpk).
    assert (Hin : In p (map Z.of_nat (seq 0 (length s)))) by (apply (Permutation_in _ Hperm); eapply nth_error_In; exact Hpk).
    apply in_map_iff in Hin. destruct Hin as [j [<- Hj]]. apply in_seq in Hj.
    assert (Eu : N.to_nat (to_usize (Z.of_nat j)) = j).
    { assert (Z.of_N (to_usize (Z.of_nat j)) = Z.of_nat j) by (apply to_usize_small; unfold w64 in Hw; lia). lia. }
    rewrite Eu in K3. rewrite Nat2Z.id in Hout. rewrite Hc in K3.
    destruct (fits_dims_elim _ _ Hd) as [_ Hd']. specialize (Hd' j c (eq_sym K3)).
    assert (Hs : nth_error s j = Some (nth j s 0)) by (apply nth_error_nth'; lia).
    rewrite Hs in Hout. erewrite nth_error_nth; [|exact Hout]. exact Hd'.
  - injection H as <-. split; [cbn; lia|]. cbn. discriminate.
Qed.

Lemma forallb_enum (p : list Z) : forallb (fun ip => Z.eqb (snd ip) (Z.of_nat (fst ip))) (enumerate p) = true <->
  p = map Z.of_nat (seq 0 (length p)).
Proof.
  unfold enumerate. generalize 0%nat as i. induction p as [|z p IH]; intros i; cbn [enumerate_from forallb length seq map fst snd].
  - tauto.
  - rewrite andb_true_iff, IH, Z.eqb_eq. split.
    + intros [E1 E2]. f_equal; [exact E1|exact E2].
    + intros E. injection E as E1 E2. auto.
Qed.

Lemma rev_seq_identity r : rev (map Z.of_nat (seq 0 r)) = map Z.of_nat (seq 0 r) <-> (r <= 1)%nat.
Proof.
  split.
  - intros H. destruct r as [|[|r]]; [lia|lia|]. exfalso.
    assert (Hh : nth_error (rev (map Z.of_nat (seq 0 (S (S r))))) 0 = nth_error (map Z.of_nat (seq 0 (S (S r)))) 0) by congruence.
    replace (S (S r)) with (S r + 1)%nat in Hh at 1 by lia.
    rewrite seq_app, map_app, rev_app_distr in Hh. cbn in Hh. injection Hh as Hh. lia.
  - intros H. destruct r as [|[|r]]; [reflexivity|reflexivity|lia].
Qed.

Lemma transpose_noop_exact n i0 rest t perm ty :
  ninputs n = i0 :: rest -> aty i0 = TensorT t -> perm_of n (tt_rank t) perm ->
  infer_transpose n = IOk ty ->
  (transpose_is_noop n = IOk true <-> perm = map Z.of_nat (seq 0 (N.to_nat (tt_rank t)))).
Proof.
  intros Hi Ht Hp H. unfold infer_transpose in H.
  rewrite (transpose_perm_of n i0 rest t perm Hi Ht Hp) in H. cbn [iexpect ibind] in H.
  unfold first_input in H. rewrite Hi in H. cbn [ibind] in H. rewrite Ht in H.
  destruct (N.eqb_spec (N.of_nat (length perm)) (tt_rank t)) as [El|El]; [|discriminate].
  unfold transpose_is_noop, first_input. rewrite Hi. cbn [ibind]. rewrite Ht.
  destruct Hp as [Hp|[Hp ->]]; rewrite Hp.
  - cbn [attr_i64s ibind]. rewrite <- El, Nat2N.id, <- forallb_enum.
    destruct (forallb _ _); split; congruence.
  - rewrite rev_seq_identity. destruct (N.leb_spec (tt_rank t) 1); split; intros; try congruence; try lia.
Qed.

(** ** Squeeze and Unsqueeze *)
Lemma mem_n_In x l : mem_n x l = true <-> In x l.
Proof.
  unfold mem_n. rewrite existsb_exists. split; [intros [y [H E]]; apply N.eqb_eq in E; subst; exact H|].
  intros H. exists x. rewrite N.eqb_refl. auto.
Qed.

Lemma norm_axis_position r a : (r < 9223372036854775808)%N -> (- Z.of_N r <= a < Z.of_N r)%Z ->
  norm_axis r a = N.of_nat (position (N.to_nat r) a).
Proof.
  intros Hr Ha. unfold norm_axis, position. rewrite N_nat_Z.
  assert (E : (a mod Z.of_N r = if a <? 0 then a + Z.of_N r else a)%Z).
  { destruct (Z.ltb_spec a 0).
    - symmetry. apply (Z.mod_unique_pos _ _ (-1)); lia.
    - apply Z.mod_small. lia. }
  rewrite E. destruct (Z.ltb_spec a 0); apply N2Z.inj; rewrite to_usize_small; lia.
Qed.

Lemma mem_norm r axes i : (r < 9223372036854775808)%N -> (forall a, In a axes -> - Z.of_N r <= a < Z.of_N r)%Z ->
  (mem_n (N.of_nat i) (map (norm_axis r) axes) = true <-> named (N.to_nat r) axes i).
Proof.
  intros Hr Hv. rewrite mem_n_In, in_map_iff. split.
  - intros [a [E Ha]]. exists a. split; [exact Ha|]. rewrite (norm_axis_position r a Hr (Hv a Ha)) in E. lia.
  - intros [a [Ha E]]. exists a. split; [|exact Ha]. rewrite (norm_axis_position r a Hr (Hv a Ha)), E. reflexivity.
Qed.

Lemma deleted_length P : forall i s out, deleted P i s out -> forall (f : nat -> bool), (forall j, f j = true <-> P j) ->
  length out = length (filter (fun j => negb (f j)) (seq i (length s))).
Proof.
  induction 1 as [i|i d s out HP D IH|i d s out HP D IH]; intros f Hf; cbn; [reflexivity| |].
  - rewrite (IH f Hf). rewrite (proj2 (Hf i) HP). reflexivity.
  - rewrite (IH f Hf). destruct (f i) eqn:E; [apply Hf in E; contradiction|]. reflexivity.
Qed.

(** Deleting the same positions from the declared dimensions. *)
Lemma deleted_fits P (f : N -> bool) : (forall i, f (N.of_nat i) = true <-> P i) ->
  forall i s out l, deleted P i s out -> fits_dims l s ->
  fits_dims (map snd (filter (fun ip => negb (f (N.of_nat (fst ip)))) (enumerate_from i l))) out.
Proof.
  intros Hf i s out l D. revert l. induction D as [i|i d s out HP D IH|i d s out HP D IH]; intros l F; inversion F as [|o ? l' ? Ho F']; subst.
  - constructor.
  - cbn. rewrite (proj2 (Hf i) HP). cbn. apply IH. exact F'.
  - cbn. destruct (f (N.of_nat i)) eqn:E; [apply Hf in E; contradiction|]. cbn. constructor; [exact Ho|apply IH; exact F'].
Qed.

Lemma position_lt r a : (0 < r)%nat -> (position r a < r)%nat.
Proof. intros H. unfold position. pose proof (Z.mod_pos_bound a (Z.of_nat r)). lia. Qed.

Lemma count_named r axes : valid_axes r axes ->
  forall f, (forall j, f j = true <-> named r axes j) ->
  (length (filter (fun j => negb (f j)) (seq 0 r)) + length axes = r)%nat.
Proof.
  intros [Hv Hn] f Hf.
  assert (E : length (filter f (seq 0 r)) = length axes).
  { rewrite <- (map_length (position r) axes). apply Permutation_length. apply NoDup_Permutation.
    - apply NoDup_filter. apply seq_NoDup.
    - exact Hn.
    - intros x. rewrite filter_In, in_seq, Hf, in_map_iff. split.
      + intros [_ [a [Ha E]]]. exists a; auto.
      + intros [a [E Ha]]. split; [|exists a; auto]. specialize (Hv a Ha).
        assert (position r a < r)%nat by (apply position_lt; lia). lia. }
  rewrite <- E. clear E. assert (G : forall l, (length (filter (fun j => negb (f j)) l) + length (filter f l) = length l)%nat).
  { induction l as [|x l IH]; cbn; [reflexivity|]. destruct (f x); cbn; lia. }
  rewrite G, seq_length. reflexivity.
Qed.

Definition named_b (r : nat) (axes : list Z) (i : nat) : bool := existsb (fun a => Nat.eqb (position r a) i) axes.
Lemma named_b_spec r axes i : named_b r axes i = true <-> named r axes i.
Proof.
  unfold named_b, named. rewrite existsb_exists. split; intros [a [H E]]; exists a; (split; [exact H|]);
    [apply Nat.eqb_eq in E; exact E|apply Nat.eqb_eq; exact E].
Qed.

Lemma fits_dims_unknown s : fits_dims (repeat None (length s)) s.
Proof. induction s; constructor; auto. Qed.

Lemma fits_tt_dims t s : fits_tt t s ->
  fits_dims (match tt_shape t with Some l => l | None => repeat None (N.to_nat (tt_rank t)) end) s.
Proof.
  intros [Hr Hd]. destruct (tt_shape t) as [l|]; [apply Hd; reflexivity|].
  replace (N.to_nat (tt_rank t)) with (length s) by lia. apply fits_dims_unknown.
Qed.

Lemma squeeze_result_fits d rank dims out : N.of_nat (length out) = rank -> fits_dims dims out ->
  fits (squeeze_result d rank dims) out.
Proof.
  intros Hr Hd. unfold squeeze_result. destruct (N.eqb_spec rank 0) as [->|E].
  - destruct out; [reflexivity|cbn in Hr; lia].
  - split; [exact Hr|]. cbn. intros l El. injection El as <-. exact Hd.
Qed.

Definition r63 : N := 9223372036854775808.

Lemma squeeze_sound value opset n i0 rest t axes s out ty :
  ninputs n = i0 :: rest -> aty i0 = TensorT t -> squeeze_axes value opset n = IOk (Some axes) ->
  tt_rank t < r63 -> fits (aty i0) s -> squeeze_of axes s out ->
  infer_squeeze value opset n = IOk ty -> fits ty out.
Proof.
  intros Hi Ht Hax Hw Hf [Hv [Ho D]] H. unfold infer_squeeze in H. rewrite Hax in H. cbn [iexpect ibind] in H.
  unfold first_input in H. rewrite Hi in H. cbn [ibind] in H. rewrite Ht in H, Hf.
  destruct (N.ltb_spec (tt_rank t) (N.of_nat (length axes))) as [Hl|Hl]; [discriminate|]. injection H as <-.
  pose proof (proj1 Hf) as Hr. assert (Hrn : N.to_nat (tt_rank t) = length s) by lia.
  apply squeeze_result_fits.
  - pose proof (deleted_length _ _ _ _ D (named_b (length s) axes) (named_b_spec _ _)) as L.
    pose proof (count_named _ _ Hv _ (named_b_spec (length s) axes)). lia.
  - unfold drop_positions, enumerate. apply (deleted_fits (named (length s) axes) (fun x => mem_n x (map (norm_axis (tt_rank t)) axes))) with (s := s).
    + intros i. rewrite <- Hrn. apply mem_norm; [exact Hw|]. destruct Hv as [Hv _]. intros a Ha. specialize (Hv a Ha). lia.
    + exact D.
    + apply fits_tt_dims. exact Hf.
Qed.

Lemma squeeze_all_sound value opset n i0 rest t l s out ty :
  ninputs n = i0 :: rest -> aty i0 = TensorT t -> squeeze_axes value opset n = IOk None ->
  tt_shape t = Some l -> (forall o, In o l -> o <> None) ->
  fits (aty i0) s -> squeeze_all_of s out ->
  infer_squeeze value opset n = IOk ty -> fits ty out.
Proof.
  intros Hi Ht Hax Hs Hk Hf D H. unfold infer_squeeze in H. rewrite Hax in H. cbn [iexpect ibind] in H.
  unfold first_input in H. rewrite Hi in H. cbn [ibind] in H. rewrite Ht, Hs in H. rewrite Ht in Hf. injection H as <-.
  destruct Hf as [_ Hd]. specialize (Hd l Hs).
  assert (G : forall l s0 i out, (forall o, In o l -> o <> None) -> fits_dims l s0 ->
     (forall k, nth_error s0 k = nth_error s (i + k)) -> deleted (fun i => nth_error s i = Some 1) i s0 out -> fits_dims (filter not_one l) out).
  { clear. induction l as [|o l IH]; intros s0 i out Hk F Hn D; inversion F as [|? d ? s1 Ho F']; subst; inversion D as [|? ? ? ? HP D'|? ? ? ? HP D']; subst.
    - constructor.
    - pose proof (Hn 0%nat) as H0. rewrite Nat.add_0_r in H0. cbn in H0. rewrite HP in H0. injection H0 as ->.
      destruct Ho as [Ho|Ho]; [destruct (Hk o (or_introl eq_refl) Ho)|]. subst o. cbn.
      apply (IH s1 (S i)); auto. { intros x Hx; apply Hk; right; exact Hx. }
      intros k. specialize (Hn (S k)). cbn in Hn. rewrite Hn. f_equal; lia.
    - pose proof (Hn 0%nat) as H0. rewrite Nat.add_0_r in H0. cbn in H0.
      destruct Ho as [Ho|Ho]; [destruct (Hk o (or_introl eq_refl) Ho)|]. subst o. cbn.
      assert (d <> 1) by congruence. destruct (N.eqb_spec d 1); [congruence|]. cbn. constructor; [right; reflexivity|].
      apply (IH s1 (S i)); auto. { intros x Hx; apply Hk; right; exact Hx. }
      intros k. specialize (Hn (S k)). cbn in Hn. rewrite Hn. f_equal; lia. }
  assert (Fd : fits_dims (filter not_one l) out) by (apply (G l s 0%nat); auto).
  apply squeeze_result_fits; [|exact Fd]. rewrite (proj1 (fits_dims_elim _ _ Fd)). reflexivity.
Qed.

(** Inserting ones. *)
Lemma insert_ones_fits P (l : list N) : forall i todo out s dims r,
  (forall j, mem_n (N.of_nat j) l = true <-> P j) ->
  deleted P i out s -> (forall k d, P (i + k)%nat -> nth_error out k = Some d -> d = 1) ->
  length out = todo -> fits_dims dims s ->
  insert_ones l (N.of_nat i) todo dims = Some r -> fits_dims r out.
Proof.
  intros i todo out s dims r Hm D. revert todo dims r.
  induction D as [i|i d out s HP D IH|i d out s HP D IH]; intros todo dims r H1 Hl F H; cbn in Hl; subst todo; cbn [insert_ones] in H.
  - injection H as <-. constructor.
  - rewrite (proj2 (Hm i) HP) in H. destruct (insert_ones l (N.of_nat i + 1) (length out) dims) as [r'|] eqn:E; [|discriminate].
    injection H as <-. constructor; [right; f_equal; symmetry; apply (H1 0%nat); [rewrite Nat.add_0_r; exact HP|reflexivity]|].
    replace (N.of_nat i + 1) with (N.of_nat (S i)) in E by lia.
    apply (IH (length out) dims r'); auto. intros k x Hk Hx. apply (H1 (S k) x); [|exact Hx]. replace (i + S k)%nat with (S i + k)%nat by lia. exact Hk.
  - destruct (mem_n (N.of_nat i) l) eqn:Em; [apply Hm in Em; contradiction|].
    inversion F as [|o ? dims' ? Ho F']; subst.
    destruct (insert_ones l (N.of_nat i + 1) (length out) dims') as [r'|] eqn:E; [|discriminate].
    injection H as <-. constructor; [exact Ho|]. replace (N.of_nat i + 1) with (N.of_nat (S i)) in E by lia.
    apply (IH (length out) dims' r'); auto. intros k x Hk Hx. apply (H1 (S k) x); [|exact Hx]. replace (i + S k)%nat with (S i + k)%nat by lia. exact Hk.
Qed.

(** Valid axes never panic. *)
Lemma insert_ones_total P (l : list N) : forall i todo out s dims,
  (forall j, mem_n (N.of_nat j) l = true <-> P j) -> deleted P i out s -> length out = todo -> length dims = length s ->
  exists r, insert_ones l (N.of_nat i) todo dims = Some r.
Proof.
  intros i todo out s dims Hm D. revert todo dims.
  induction D as [i|i d out s HP D IH|i d out s HP D IH]; intros todo dims Hl F; cbn in Hl; subst todo; cbn [insert_ones].
  - eauto.
  - rewrite (proj2 (Hm i) HP). replace (N.of_nat i + 1) with (N.of_nat (S i)) by lia.
    destruct (IH (length out) dims eq_refl F) as [r ->]. cbn. eauto.
  - destruct (mem_n (N.of_nat i) l) eqn:Em; [apply Hm in Em; contradiction|].
    destruct dims as [|x dims]; [discriminate|]. replace (N.of_nat i + 1) with (N.of_nat (S i)) by lia.
    destruct (IH (length out) dims eq_refl) as [r ->]; [cbn in F; lia|]. cbn. eauto.
Qed.

Lemma unsqueeze_sound value opset n i0 rest o0 orest axes s out :
  ninputs n = i0 :: rest -> noutputs n = o0 :: orest -> unsqueeze_axes value opset n = IOk (Some axes) ->
  N.of_nat (length out) < r63 -> (forall r, aty i0 <> ShapeT r) ->
  fits (aty i0) s -> unsqueeze_of axes s out ->
  exists ty, infer_unsqueeze value opset n = IOk ty /\ fits ty out.
Proof.
  intros Hi Ho Hax Hw Hns Hf [Hlen [Hv [H1 D]]].
  unfold infer_unsqueeze. rewrite Hax. cbn [iexpect ibind]. unfold first_input, first_output. rewrite Hi, Ho. cbn [ibind].
  assert (Hgen : forall d r0 dims, r0 + N.of_nat (length axes) = N.of_nat (length out) -> fits_dims dims s ->
    exists ty', match insert_ones (map (norm_axis (r0 + N.of_nat (length axes))) axes) 0 (N.to_nat (r0 + N.of_nat (length axes))) dims with
          | Some s => IOk (TensorT (mkTT d (r0 + N.of_nat (length axes)) (Some s)))
          | None => IPanic
          end = IOk ty' /\ fits ty' out).
  { intros d r0 dims E F. rewrite E, Nat2N.id.
    assert (Hm : forall j, mem_n (N.of_nat j) (map (norm_axis (N.of_nat (length out))) axes) = true <-> named (length out) axes j).
    { intros j. rewrite mem_norm; [rewrite Nat2N.id; tauto|exact Hw|]. destruct Hv as [Hv _]. intros a Ha. specialize (Hv a Ha). lia. }
    destruct (insert_ones_total _ _ 0%nat (length out) out s dims Hm D eq_refl (proj1 (fits_dims_elim _ _ F))) as [r Er].
    change (N.of_nat 0) with 0 in Er. rewrite Er. eexists. split; [reflexivity|]. split; [reflexivity|].
    cbn. intros l El. injection El as <-.
    apply (insert_ones_fits _ _ 0%nat (length out) out s dims r Hm D); auto. }
  destruct (aty i0) as [d|d|k|t] eqn:Et.
  - cbn [fits] in Hf. subst s. cbn [ibind]. destruct (N.eqb_spec (0 + N.of_nat (length axes)) 1) as [E|E].
    + assert (Hone : out = [1]).
      { cbn in Hlen. destruct out as [|x [|y out]]; cbn in *; try lia. f_equal.
        inversion D as [|? ? ? ? HP D'|]; subst. apply (H1 0%nat x HP). reflexivity. }
      eexists. split; [reflexivity|]. rewrite Hone. destruct (is_int_dtype d); [reflexivity|].
      split; [cbn; lia|]. cbn. intros l El. injection El as <-. constructor; [right; reflexivity|constructor].
    + cbn in Hlen. change (repeat None (N.to_nat 0)) with (@nil (option N)).
      destruct (Hgen (match aty o0 with TensorT _ => input_dtype (ScalarTensor d) | ScalarTensor d | ScalarNative d => d | ShapeT _ => I64 end) 0 []) as [ty' [E1 E2]]; [lia|constructor|].
      exists ty'. split; [exact E1|exact E2].
  - cbn [fits] in Hf. subst s. cbn [ibind]. destruct (N.eqb_spec (0 + N.of_nat (length axes)) 1) as [E|E].
    + assert (Hone : out = [1]).
      { cbn in Hlen. destruct out as [|x [|y out]]; cbn in *; try lia. f_equal.
        inversion D as [|? ? ? ? HP D'|]; subst. apply (H1 0%nat x HP). reflexivity. }
      eexists. split; [reflexivity|]. rewrite Hone. destruct (is_int_dtype d); [reflexivity|].
      split; [cbn; lia|]. cbn. intros l El. injection El as <-. constructor; [right; reflexivity|constructor].
    + cbn in Hlen. change (repeat None (N.to_nat 0)) with (@nil (option N)).
      destruct (Hgen (match aty o0 with TensorT _ => input_dtype (ScalarNative d) | ScalarTensor d | ScalarNative d => d | ShapeT _ => I64 end) 0 []) as [ty' [E1 E2]]; [lia|constructor|].
      exists ty'. split; [exact E1|exact E2].
  - destruct (Hns k eq_refl).
  - cbn [ibind]. destruct Hf as [Hr Hd].
    destruct (Hgen (match aty o0 with TensorT _ => input_dtype (TensorT t) | ScalarTensor d | ScalarNative d => d | ShapeT _ => I64 end) (tt_rank t)
      (match tt_shape t with Some s => s | None => repeat None (N.to_nat (tt_rank t)) end)) as [ty' [E1 E2]]; [lia|apply fits_tt_dims; split; assumption|].
    exists ty'. split; [exact E1|exact E2].
Qed.

(** Squeezing what was inserted. *)
Lemma insert_then_drop L : forall todo i dims r, insert_ones L (N.of_nat i) todo dims = Some r ->
  length r = todo /\
  exists rest, dims = map snd (filter (fun ip => negb (mem_n (N.of_nat (fst ip)) L)) (enumerate_from i r)) ++ rest.
Proof.
  induction todo as [|k IH]; intros i dims r H; cbn [insert_ones] in H.
  - injection H as <-. split; [reflexivity|]. exists dims. reflexivity.
  - destruct (mem_n (N.of_nat i) L) eqn:E.
    + destruct (insert_ones L (N.of_nat i + 1) k dims) as [r'|] eqn:E'; [|discriminate]. injection H as <-.
      replace (N.of_nat i + 1) with (N.of_nat (S i)) in E' by lia. destruct (IH _ _ _ E') as [I1 [rest I2]].
      split; [cbn; lia|]. exists rest. cbn. rewrite E. exact I2.
    + destruct dims as [|d dims]; [discriminate|].
      destruct (insert_ones L (N.of_nat i + 1) k dims) as [r'|] eqn:E'; [|discriminate]. injection H as <-.
      replace (N.of_nat i + 1) with (N.of_nat (S i)) in E' by lia. destruct (IH _ _ _ E') as [I1 [rest I2]].
      split; [cbn; lia|]. exists rest. cbn. rewrite E. cbn. congruence.
Qed.
Lemma drop_length L : forall r i, length (map snd (filter (fun ip : nat * option N => negb (mem_n (N.of_nat (fst ip)) L)) (enumerate_from i r))) =
  length (filter (fun j => negb (mem_n (N.of_nat j) L)) (seq i (length r))).
Proof.
  induction r as [|d r IH]; intros i; cbn; [reflexivity|]. destruct (mem_n (N.of_nat i) L); cbn; rewrite ?IH; reflexivity.
Qed.

Definition declared (t : tensor_type) : list (option N) :=
  match tt_shape t with Some s => s | None => repeat None (N.to_nat (tt_rank t)) end.

Lemma squeeze_unsqueeze value opset value' opset' n m i0 rest o0 orest j0 jrest t axes ty :
  ninputs n = i0 :: rest -> noutputs n = o0 :: orest -> aty i0 = TensorT t ->
  (1 <= tt_rank t) -> length (declared t) = N.to_nat (tt_rank t) ->
  tt_rank t + N.of_nat (length axes) < r63 ->
  valid_axes (N.to_nat (tt_rank t) + length axes) axes ->
  unsqueeze_axes value opset n = IOk (Some axes) -> infer_unsqueeze value opset n = IOk ty ->
  ninputs m = j0 :: jrest -> aty j0 = ty -> squeeze_axes value' opset' m = IOk (Some axes) ->
  exists d, infer_squeeze value' opset' m = IOk (TensorT (mkTT d (tt_rank t) (Some (declared t)))).
Proof.
  intros Hi Ho Ht Hr1 Hlen Hw Hv Hax Hty Hj Hjt Hax'.
  unfold infer_unsqueeze in Hty. rewrite Hax in Hty. cbn [iexpect ibind] in Hty. unfold first_input, first_output in Hty.
  rewrite Hi, Ho in Hty. cbn [ibind] in Hty. rewrite Ht in Hty. cbn [ibind] in Hty. fold (declared t) in Hty.
  set (d := match aty o0 with TensorT _ => input_dtype (TensorT t) | ScalarTensor d | ScalarNative d => d | ShapeT _ => I64 end) in *.
  destruct (insert_ones (map (norm_axis (tt_rank t + N.of_nat (length axes))) axes) 0 (N.to_nat (tt_rank t + N.of_nat (length axes))) (declared t)) as [r|] eqn:E; [|discriminate].
  injection Hty as <-. change 0 with (N.of_nat 0) in E.
  destruct (insert_then_drop _ _ _ _ _ E) as [L [rst Er]].
  exists d. unfold infer_squeeze. rewrite Hax'. cbn [iexpect ibind]. unfold first_input. rewrite Hj. cbn [ibind]. rewrite Hjt. cbn [tt_rank tt_shape tt_dtype].
  destruct (N.ltb_spec (tt_rank t + N.of_nat (length axes)) (N.of_nat (length axes))); [lia|].
  unfold squeeze_result. replace (tt_rank t + N.of_nat (length axes) - N.of_nat (length axes)) with (tt_rank t) by lia.
  destruct (N.eqb_spec (tt_rank t) 0); [lia|]. do 4 f_equal. unfold drop_positions, enumerate.
  set (K := map snd (filter (fun ip : nat * option N => negb (mem_n (N.of_nat (fst ip)) (map (norm_axis (tt_rank t + N.of_nat (length axes))) axes))) (enumerate_from 0 r))) in *.
  assert (HK : length K = length (declared t)).
  { unfold K. rewrite drop_length, L.
    assert (Hc := count_named (N.to_nat (tt_rank t) + length axes) axes Hv
      (fun j => mem_n (N.of_nat j) (map (norm_axis (tt_rank t + N.of_nat (length axes))) axes))).
    replace (N.to_nat (tt_rank t + N.of_nat (length axes))) with (N.to_nat (tt_rank t) + length axes)%nat by lia.
    cbv beta in Hc. rewrite Hlen. enough (Heq : forall j, mem_n (N.of_nat j) (map (norm_axis (tt_rank t + N.of_nat (length axes))) axes) = true <-> named (N.to_nat (tt_rank t) + length axes) axes j).
    { specialize (Hc Heq). lia. }
    intros j. rewrite mem_norm; [|exact Hw|].
    - replace (N.to_nat (tt_rank t + N.of_nat (length axes))) with (N.to_nat (tt_rank t) + length axes)%nat by lia. tauto.
    - destruct Hv as [Hv _]. intros a Ha. specialize (Hv a Ha). lia. }
  rewrite Er in HK. rewrite app_length in HK. destruct rst; [|cbn in HK; lia]. rewrite app_nil_r in Er. symmetry. exact Er.
Qed.

(** ** Reshape *)
Definition i64_range (z : Z) : Prop := (-9223372036854775808 <= z < 9223372036854775808)%Z.

Section ReshapeProofs.
  Variables (az : Z) (s out : list N) (req : list Z).
  Hypothesis Hof : reshape_of (Z.eqb az 1) s req out.
  Hypothesis Hi64 : Forall i64_range req.

  Lemma reshape_dim_sound ins i v c : (forall l, ins = Some l -> fits_dims l s) ->
    nth_error req i = Some v -> reshape_dim ins az (i, v) = Some c -> nth_error out i = Some c.
  Proof.
    intros Hins Hv Hc. destruct Hof as [Hlen [_ [_ [_ Hd]]]].
    assert (exists d, nth_error out i = Some d).
    { destruct (nth_error out i) eqn:E; [eauto|]. apply nth_error_None in E. assert (i < length req)%nat by (apply nth_error_Some; congruence). lia. }
    destruct H as [d Hdi]. rewrite Hdi. f_equal. specialize (Hd i v d Hv Hdi).
    rewrite Forall_forall in Hi64. specialize (Hi64 v (nth_error_In _ _ Hv)). unfold i64_range in Hi64.
    unfold reshape_dim in Hc. destruct (Z.ltb_spec 0 v).
    - injection Hc as <-. apply N2Z.inj. rewrite to_usize_small by lia. destruct Hd as [[? ?]|[[? _]|[[? _]|?]]]; lia.
    - destruct (Z.eqb_spec v 0) as [->|Hv0]; [|discriminate].
      destruct (Z.eqb_spec az 1) as [->|Haz].
      + injection Hc as <-. destruct Hd as [[? _]|[[_ [_ ?]]|[[_ [? _]]|?]]]; try lia; try discriminate.
      + destruct ins as [l|]; [|discriminate]. destruct (nth_error l i) as [x|] eqn:El; [|discriminate]. subst x.
        destruct (fits_dims_elim _ _ (Hins l eq_refl)) as [_ Hl]. specialize (Hl i c El).
        destruct Hd as [[? _]|[[_ [? _]]|[[_ [_ Hs]]|?]]]; try lia; try discriminate.
        erewrite nth_error_nth in Hl; [|exact Hs]. exact Hl.
  Qed.

  Lemma nth_error_enum {A} (l : list A) : forall i k, nth_error (enumerate_from i l) k = option_map (pair (i + k)%nat) (nth_error l k).
  Proof.
    induction l as [|x l IH]; intros i [|k]; cbn; try reflexivity; [rewrite Nat.add_0_r; reflexivity|].
    rewrite IH. replace (S i + k)%nat with (i + S k)%nat by lia. reflexivity.
  Qed.

  Lemma dims_nth ins k : nth_error (map (reshape_dim ins az) (enumerate req)) k =
    option_map (fun v => reshape_dim ins az (k, v)) (nth_error req k).
  Proof.
    rewrite nth_error_map. unfold enumerate. rewrite nth_error_enum. destruct (nth_error req k); reflexivity.
  Qed.
  Lemma enum_length {A} (l : list A) : forall i, length (enumerate_from i l) = length l.
  Proof. induction l; intros i; cbn; auto. Qed.

  Lemma dims_fit ins : (forall l, ins = Some l -> fits_dims l s) -> fits_dims (map (reshape_dim ins az) (enumerate req)) out.
  Proof.
    intros Hins. apply fits_dims_intro.
    - rewrite map_length. unfold enumerate. rewrite enum_length. destruct Hof as [Hlen _]. lia.
    - intros p c Hp. rewrite dims_nth in Hp. destruct (nth_error req p) as [v|] eqn:Ev; [|discriminate]. cbn [option_map] in Hp.
      assert (Hc : reshape_dim ins az (p, v) = Some c) by congruence.
      pose proof (reshape_dim_sound ins p v c Hins Ev Hc) as Ho. erewrite nth_error_nth; [|exact Ho]. reflexivity.
  Qed.

  (** The product of the known dimensions times the one unknown. *)
  Lemma prod_known : forall dims o j x, fits_dims dims o -> nth_error dims j = Some None -> nth_error o j = Some x ->
    (forall k d, nth_error dims k = Some d -> k <> j -> d <> None) ->
    prodN o = x * prodN (unopt (filter is_known dims)).
  Proof.
    intros dims o j x F. revert j. induction F as [|a b dims o Hab F IH]; intros [|j] Hn Ho Hk; cbn in *; try discriminate.
    - injection Hn as ->. injection Ho as ->. cbn.
      assert (Hall : forall dims o, fits_dims dims o -> (forall k d, nth_error dims k = Some d -> d <> None) -> prodN o = prodN (unopt (filter is_known dims))).
      { clear. intros dims o F. induction F as [|a b dims o Hab F IH]; intros Hk; [reflexivity|]. cbn.
        destruct a as [a|]; [|destruct (Hk 0%nat None eq_refl eq_refl)]. destruct Hab as [Hab|Hab]; [discriminate|]. injection Hab as ->. cbn.
        rewrite IH; [reflexivity|]. intros k d Hd. apply (Hk (S k) d Hd). }
      rewrite (Hall dims o F); [reflexivity|]. intros k d Hd. apply (Hk (S k) d Hd). lia.
    - destruct a as [a|]; [|destruct (Hk 0%nat None eq_refl ltac:(lia) eq_refl)]. destruct Hab as [Hab|Hab]; [discriminate|]. injection Hab as ->. cbn.
      rewrite (IH j Hn Ho); [unfold unopt; ring|]. intros k d Hd Hkj. apply (Hk (S k) d Hd). lia.
  Qed.

  Lemma reshape_static_fits ins : (forall l, ins = Some l -> fits_dims l s) -> prodN s < w64 ->
    fits_dims (reshape_static ins az req) out.
  Proof.
    intros Hins Hw. pose proof (dims_fit ins Hins) as F. unfold reshape_static.
    destruct (mem_z (-1) req) eqn:Em; [|exact F].
    destruct ins as [l|]; [|exact F]. destruct (known_product l) as [total|] eqn:Et; [|exact F].
    set (dims := map (reshape_dim (Some l) az) (enumerate req)) in *.
    destruct (known_product (filter is_known dims)) as [product|] eqn:Ep; [|exact F].
    destruct (N.ltb 0 product && N.eqb (total mod product) 0)%bool eqn:Ec; [|exact F].
    assert (Hj : exists j, nth_error req j = Some (-1)%Z).
    { unfold mem_z in Em. apply existsb_exists in Em. destruct Em as [z [Hz E]]. apply Z.eqb_eq in E. subst z.
      apply In_nth_error in Hz. exact Hz. }
    destruct Hj as [j Hj].
    assert (Hlen : length out = length req) by (destruct Hof; assumption).
    assert (Hx : exists x, nth_error out j = Some x).
    { destruct (nth_error out j) eqn:E; [eauto|]. apply nth_error_None in E. assert (j < length req)%nat by (apply nth_error_Some; congruence). lia. }
    destruct Hx as [x Hx].
    pose proof (Hins l eq_refl) as Fl. pose proof (known_product_fits l s total Fl Et) as Htot. rewrite N.mod_small in Htot by exact Hw.
    destruct (known_product_all l total Et) as [Hallk _].
    assert (Hdj : nth_error dims j = Some None) by (unfold dims; rewrite dims_nth, Hj; reflexivity).
    assert (Hothers : forall k d, nth_error dims k = Some d -> k <> j -> d <> None).
    { intros k d Hd Hkj. unfold dims in Hd. rewrite dims_nth in Hd. destruct (nth_error req k) as [v|] eqn:Ev; [|discriminate]. cbn [option_map] in Hd.
      assert (Hd' : d = reshape_dim (Some l) az (k, v)) by congruence. subst d.
      destruct Hof as [_ [_ [Huniq [_ Hd0]]]].
      assert (Ho : exists y, nth_error out k = Some y).
      { destruct (nth_error out k) eqn:E; [eauto|]. apply nth_error_None in E. assert (k < length req)%nat by (apply nth_error_Some; congruence). lia. }
      destruct Ho as [y Hy]. specialize (Hd0 k v y Ev Hy). unfold reshape_dim.
      destruct (Z.ltb_spec 0 v); [discriminate|]. destruct (Z.eqb_spec v 0) as [->|Hv0].
      - destruct (Z.eqb_spec az 1); [discriminate|].
        destruct Hd0 as [[? _]|[[_ [? _]]|[[_ [_ Hs]]|?]]]; try lia; try congruence.
        assert (Hkl : (k < length l)%nat) by (rewrite (proj1 (fits_dims_elim _ _ Fl)); apply nth_error_Some; congruence).
        destruct (nth_error l k) as [o|] eqn:El; [|apply nth_error_None in El; lia]. apply Hallk. eapply nth_error_In. exact El.
      - exfalso. destruct Hd0 as [[? _]|[[? _]|[[? _]|?]]]; try lia. subst v. apply Hkj. apply (Huniq k j Ev Hj). }
    pose proof (prod_known dims out j x F Hdj Hx Hothers) as HP.
    destruct (known_product_all _ _ Ep) as [_ Hprod].
    set (P := prodN (unopt (filter is_known dims))) in *.
    assert (HT : prodN out = total) by (destruct Hof as [_ [Hc _]]; congruence).
    assert (Hpos : 0 < product) by lia.
    assert (Hinf : total / product = x).
    { destruct (N.eq_dec total 0) as [E0|E0].
      - rewrite E0. rewrite N.div_0_l by lia. destruct (N.eq_dec P 0) as [EP|EP].
        + rewrite EP in Hprod. rewrite N.mod_0_l in Hprod by (unfold w64; lia). lia.
        + rewrite E0, HP in HT. symmetry. apply N.mul_eq_0 in HT. destruct HT; [assumption|contradiction].
      - assert (P <= total) by (rewrite <- HT, HP; destruct (N.eq_dec x 0); [subst x; rewrite HP in HT; lia|nia]).
        rewrite N.mod_small in Hprod by lia. subst product. rewrite <- HT, HP. apply N.div_mul. lia. }
    rewrite Hinf. destruct (fits_dims_elim _ _ F) as [FL FN].
    apply fits_dims_intro.
    - rewrite map_length, combine_length. lia.
    - intros p c Hp. rewrite nth_error_map in Hp.
      assert (Hcomb : forall (l1 : list Z) (l2 : list (option N)) k, nth_error (combine l1 l2) k =
        match nth_error l1 k, nth_error l2 k with Some a, Some b => Some (a, b) | _, _ => None end).
      { clear. induction l1 as [|a l1 IH]; intros [|b l2] [|k]; cbn; try reflexivity; [destruct (nth_error l1 k); reflexivity|apply IH]. }
      rewrite Hcomb in Hp. destruct (nth_error req p) as [v|] eqn:Ev; [|discriminate].
      destruct (nth_error dims p) as [d|] eqn:Ed; [|discriminate]. cbn in Hp.
      destruct (Z.eqb_spec v (-1)) as [->|Hv1].
      + injection Hp as <-. destruct Hof as [_ [_ [Huniq _]]]. rewrite (Huniq p j Ev Hj). erewrite nth_error_nth; [|exact Hx]. reflexivity.
      + injection Hp as ->. apply FN. exact Ed.
  Qed.
End ReshapeProofs.

Lemma reshape_static_count ins az req l : ins = Some l -> In (-1)%Z req ->
  (forall o, In o (reshape_static ins az req) -> o <> None) -> (forall o, In o l -> o <> None) ->
  (forall i j, nth_error req i = Some (-1)%Z -> nth_error req j = Some (-1)%Z -> i = j) ->
  prodN (unopt (reshape_static ins az req)) mod w64 = prodN (unopt l) mod w64.
Proof.
  intros -> Hin Hall Hl Huniq. unfold reshape_static in *.
  assert (Em : mem_z (-1) req = true) by (unfold mem_z; apply existsb_exists; exists (-1)%Z; auto).
  rewrite Em in *. set (dims := map (reshape_dim (Some l) az) (enumerate req)) in *.
  apply In_nth_error in Hin. destruct Hin as [j Hj].
  assert (Hdj : nth_error dims j = Some None) by (unfold dims; rewrite dims_nth, Hj; reflexivity).
  destruct (known_product l) as [total|] eqn:Et; [|exfalso; apply (Hall None (nth_error_In _ _ Hdj)); reflexivity].
  destruct (known_product (filter is_known dims)) as [product|] eqn:Ep; [|exfalso; apply (Hall None (nth_error_In _ _ Hdj)); reflexivity].
  destruct (N.ltb 0 product && N.eqb (total mod product) 0)%bool eqn:Ec; [|exfalso; apply (Hall None (nth_error_In _ _ Hdj)); reflexivity].
  destruct (known_product_all _ _ Et) as [_ Ht]. destruct (known_product_all _ _ Ep) as [_ Hp].
  set (q := total / product) in *. set (res := map (fun vd : Z * option N => if Z.eqb (fst vd) (-1) then Some q else snd vd) (combine req dims)) in *.
  assert (Hlen : length dims = length req) by (unfold dims, enumerate; rewrite map_length, enum_length; reflexivity).
  assert (Hcomb : forall (l1 : list Z) (l2 : list (option N)) k, nth_error (combine l1 l2) k =
        match nth_error l1 k, nth_error l2 k with Some a, Some b => Some (a, b) | _, _ => None end).
  { clear. induction l1 as [|a l1 IH]; intros [|b l2] [|k]; cbn; try reflexivity; [destruct (nth_error l1 k); reflexivity|apply IH]. }
  assert (Hres : forall k, nth_error res k = match nth_error req k, nth_error dims k with
     | Some v, Some d => Some (if Z.eqb v (-1) then Some q else d) | _, _ => None end).
  { intros k. unfold res. rewrite nth_error_map, Hcomb. destruct (nth_error req k), (nth_error dims k); reflexivity. }
  assert (Hlr : length res = length req) by (unfold res; rewrite map_length, combine_length; lia).
  assert (Hother : forall k d, nth_error dims k = Some d -> k <> j -> d <> None).
  { intros k d Hd Hk. assert (Hv : exists v, nth_error req k = Some v).
    { destruct (nth_error req k) eqn:E; [eauto|]. apply nth_error_None in E. assert (k < length dims)%nat by (apply nth_error_Some; congruence). lia. }
    destruct Hv as [v Hv]. pose proof (Hres k) as Hr. rewrite Hv, Hd in Hr.
    destruct (Z.eqb_spec v (-1)) as [->|Hn]; [destruct (Hk (Huniq k j Hv Hj))|]. apply Hall. eapply nth_error_In; exact Hr. }
  assert (HP : prodN (unopt res) = q * prodN (unopt (filter is_known dims))).
  { apply (prod_known dims (unopt res) j q); auto.
    - apply fits_dims_intro; [unfold unopt; rewrite map_length; lia|]. intros p c Hpc.
      assert (Hv : exists v, nth_error req p = Some v).
      { destruct (nth_error req p) eqn:E; [eauto|]. apply nth_error_None in E. assert (p < length dims)%nat by (apply nth_error_Some; congruence). lia. }
      destruct Hv as [v Hv]. pose proof (Hres p) as Hr. rewrite Hv, Hpc in Hr.
      destruct (Z.eqb_spec v (-1)) as [->|Hn].
      + assert (p = j) by (apply (Huniq p j Hv Hj)). subst p. congruence.
      + erewrite nth_error_nth; [|unfold unopt; rewrite nth_error_map, Hr; reflexivity]. reflexivity.
    - unfold unopt. rewrite nth_error_map, Hres, Hj, Hdj. reflexivity. }
  rewrite HP, <- Ht. assert (E : total = product * q).
  { unfold q. assert (total mod product = 0) by lia. apply N.div_exact; lia. }
  assert (Hw : w64 <> 0) by (unfold w64; lia).
  rewrite <- N.mul_mod_idemp_r by exact Hw. rewrite <- Hp, (N.mul_comm q), <- E.
  rewrite Ht. apply N.mod_mod. exact Hw.
Qed.

Lemma reshape_ok value n i0 rest o0 orest az s req out ty :
  ninputs n = i0 :: rest -> noutputs n = o0 :: orest ->
  attr_i64_or n "allowzero" 0 = IOk az -> get_static_shape value n = IOk (Some req) ->
  fits (aty i0) s -> (forall d, aty i0 <> ScalarNative d) -> ((exists r, aty i0 = ShapeT r) -> req <> [0%Z]) ->
  reshape_of (Z.eqb az 1) s req out -> Forall i64_range req -> prodN s < w64 ->
  infer_reshape value n = IOk ty -> fits ty out.
Proof.
  intros Hi Ho Haz Hst Hf Hns Hsh Hof Hr Hw H. unfold infer_reshape in H.
  destruct (reshape_input_ok n); [|discriminate]. cbn [negb] in H. rewrite Hst in H. cbn [ibind] in H. rewrite Haz in H. cbn [ibind] in H.
  destruct (reshape_values_ok req az); [|discriminate]. cbn [negb] in H. unfold first_input, first_output in H. rewrite Hi, Ho in H. cbn [ibind reshape_rank] in H.
  assert (Hlen : length out = length req) by (destruct Hof; assumption).
  set (ins := match aty i0 with TensorT t => tt_shape t | _ => None end) in H.
  assert (Hins : forall l, ins = Some l -> fits_dims l s).
  { intros l El. unfold ins in El. destruct (aty i0); try discriminate. destruct Hf as [_ Hf]. apply Hf. exact El. }
  pose proof (reshape_static_fits az s out req Hof Hr ins Hins Hw) as F.
  set (dims := reshape_static ins az req) in *.
  assert (Hty : ty = reshape_output_type (aty i0) (N.of_nat (length req)) (Some req) (Some dims)) by congruence. subst ty. clear H.
  assert (HT : forall d, fits (TensorT (mkTT d (N.of_nat (length req)) (Some dims))) out).
  { intros d. cbn. split; [cbn; lia|]. cbn. intros l El. injection El as <-. exact F. }
  unfold reshape_output_type. destruct (N.eqb_spec (N.of_nat (length req)) 0) as [E0|E0].
  - cbn. destruct out; [reflexivity|cbn in *; lia].
  - destruct (aty i0) as [d|d|r|t] eqn:Et.
    + exact (HT _).
    + destruct (Hns d). reflexivity.
    + destruct (N.eqb_spec (N.of_nat (length req)) 1) as [E1|E1]; [|exact (HT _)].
      cbn in Hf. destruct req as [|v [|? ?]]; cbn in E1; try lia. destruct out as [|x [|? ?]]; cbn in Hlen; try lia.
      cbn. destruct Hof as [_ [Hp [_ [_ Hd]]]]. specialize (Hd 0%nat v x eq_refl eq_refl). rewrite Hf in Hp, Hd. cbn in Hp.
      inversion Hr as [|? ? Hv _]; subst. unfold i64_range in Hv.
      destruct (Z.eqb_spec v (-1)) as [->|Hv1]; [f_equal; lia|].
      destruct (Z.ltb_spec 0 v).
      * f_equal. destruct Hd as [[? Hd]|[[? _]|[[? _]|?]]]; try lia. apply N2Z.inj. rewrite to_usize_small; lia.
      * destruct Hd as [[? Hd]|[[? _]|[[? _]|?]]]; try lia; subst v; destruct (Hsh (ex_intro (fun r' => ShapeT r = ShapeT r') r eq_refl) eq_refl).
    + exact (HT _).
Qed.

(** The shape only known at run time: the rank comes from the shape input's own
    length, or from the declared output. *)
Lemma reshape_runtime_ok value n i0 i1 t o0 orest az s req out ty :
  ninputs n = [i0; i1] -> noutputs n = o0 :: orest ->
  attr_i64_or n "allowzero" 0 = IOk az -> get_static_shape value n = IOk None ->
  aty i0 = TensorT t -> fits (aty i1) [N.of_nat (length req)] ->
  (((forall t', aty o0 = TensorT t' -> fits_tt t' out) /\ (forall d, aty o0 = ScalarNative d -> out = [])) \/
   ((exists r, aty i1 = ShapeT r) /\ (forall t', aty o0 = TensorT t' -> tt_shape t' = None))) ->
  reshape_of (Z.eqb az 1) s req out ->
  infer_reshape value n = IOk ty -> fits ty out.
Proof.
  intros Hi Ho Haz Hst Ht Hf1 Hor Hof H. unfold infer_reshape in H.
  destruct (reshape_input_ok n) eqn:Hok; [|discriminate]. cbn [negb] in H. rewrite Hst in H. cbn [ibind] in H. rewrite Haz in H. cbn [ibind] in H.
  unfold first_input, first_output in H. rewrite Hi, Ho in H. cbn [ibind] in H.
  assert (Hlen : length out = length req) by (destruct Hof; assumption).
  destruct (reshape_rank n None (aty o0)) as [rank| |] eqn:Er; try discriminate. cbn [ibind] in H.
  assert (Hrank : N.of_nat (length out) = rank).
  { unfold reshape_rank in Er. destruct (rank_from_shape_input n) as [r|] eqn:Es.
    - injection Er as ->. unfold rank_from_shape_input in Es. rewrite Hi in Es. destruct (aty i1) as [d1|d1|r1|t1] eqn:E1; try discriminate.
      + cbn in Hf1. assert (r1 = rank) by congruence. assert (N.of_nat (length req) = r1) by congruence. congruence.
      + destruct Hf1 as [_ Hf1]. destruct (tt_shape t1) as [[|d rs]|]; try discriminate. subst d. specialize (Hf1 _ eq_refl).
        inversion Hf1 as [|? ? ? ? Hd _]; subst. destruct Hd as [Hd|Hd]; [discriminate|]. assert (rank = N.of_nat (length req)) by congruence. congruence.
    - unfold rank_from_output in Er. destruct Hor as [[Hot Hos]|[[r' Hr'] _]];
        [|unfold rank_from_shape_input in Es; rewrite Hi, Hr' in Es; discriminate]. destruct (aty o0) as [d'|d'|r'|t'] eqn:Eo; try discriminate.
      + injection Er as <-. rewrite (Hos d' eq_refl). reflexivity.
      + injection Er as <-. destruct (Hot t' eq_refl). lia. }
  rewrite Ht in H. unfold reshape_output_type in H. destruct (N.eqb_spec rank 0) as [E0|E0].
  - injection H as <-. cbn. destruct out; [reflexivity|cbn in Hrank; lia].
  - injection H as <-. cbn. split; [cbn; lia|]. cbn. intros l El. destruct (aty o0) as [d'|d'|r'|t']; try discriminate.
    destruct Hor as [[Hot _]|[_ Hn]]; [|rewrite (Hn t' eq_refl) in El; discriminate].
    destruct (Hot t' eq_refl) as [_ Hd]. apply Hd. exact El.
Qed.

Lemma flatten_noop n i0 rest t axis s out :
  ninputs n = i0 :: rest -> aty i0 = TensorT t -> fits (aty i0) s -> attr_i64_or n "axis" 1 = IOk axis ->
  flatten_of axis s out -> flatten_is_noop n = IOk true -> out = s.
Proof.
  intros Hi Ht Hf Ha [Hax Hout] H. unfold flatten_is_noop, first_input in H. rewrite Hi in H. cbn [ibind] in H. rewrite Ht in H, Hf.
  destruct Hf as [Hlen _]. destruct (N.eqb_spec (tt_rank t) 2) as [E2|]; [|discriminate]. cbn [negb] in H. rewrite Ha in H. cbn [ibind] in H.
  injection H as H. rewrite E2 in *. destruct s as [|a [|b [|? ?]]]; cbn in Hlen; try lia.
  assert (axis = 1 \/ axis = -1)%Z by lia. destruct H0 as [-> | ->]; change (out = [a * 1; b * 1]) in Hout; rewrite !N.mul_1_r in Hout; exact Hout.
Qed.

(** ** How the lists are given *)
Definition shape_given (value : arg -> option cval) (n : rnode) (req : list Z) : Prop :=
  as_constant value cv_ints n req \/
  ((forall i1, nth_error (ninputs n) 1 = Some i1 -> value i1 = None) /\ as_attribute n "shape" req).
Lemma shape_given_static value n req : shape_given value n req -> get_static_shape value n = IOk (Some req).
Proof.
  unfold get_static_shape. intros [[i0 [i1 [rest [v [Hi [Hv Hz]]]]]]|[Hn Ha]].
  - rewrite Hi, Hv, Hz. reflexivity.
  - unfold as_attribute in Ha. rewrite Ha. destruct (ninputs n) as [|i0 [|i1 r]]; try reflexivity.
    rewrite (Hn i1 eq_refl). reflexivity.
Qed.
Definition squeeze_axes_given (value : arg -> option cval) (opset : N) (n : rnode) (axes : list Z) : Prop :=
  (opset < 13 /\ as_attribute n "axes" axes /\ axes <> []) \/ (get_attr n "axes" = None /\ as_constant value cv_ints n axes).
Lemma squeeze_axes_static value opset n axes : squeeze_axes_given value opset n axes -> squeeze_axes value opset n = IOk (Some axes).
Proof.
  unfold squeeze_axes. intros [[Ho [Ha Hne]]|[Hn [i0 [i1 [rest [v [Hi [Hv Hz]]]]]]]].
  - unfold as_attribute in Ha. rewrite Ha. destruct (N.leb_spec 13 opset); [lia|]. cbn. destruct axes; [congruence|reflexivity].
  - rewrite Hn, Hi, Hv, Hz. reflexivity.
Qed.
Definition no_axes (n : rnode) : Prop := get_attr n "axes" = None /\ (length (ninputs n) <= 1)%nat.
Lemma no_axes_static value opset n : no_axes n -> squeeze_axes value opset n = IOk None.
Proof.
  unfold squeeze_axes. intros [-> H]. destruct (ninputs n) as [|? [|? ?]]; cbn in H; try reflexivity. lia.
Qed.
Definition unsqueeze_axes_given (value : arg -> option cval) (opset : N) (n : rnode) (axes : list Z) : Prop :=
  (opset < 13 /\ as_attribute n "axes" axes) \/
  (get_attr n "axes" = None /\ exists i0 i1 rest v d, ninputs n = i0 :: i1 :: rest /\ value i1 = Some v /\ cv_ints v = Some axes /\
     (((exists t, aty i1 = TensorT t /\ tt_rank t <= 1) /\ length (cv_shape v) = 1%nat) \/
      ((aty i1 = ScalarTensor d \/ aty i1 = ScalarNative d) /\ (d = I64 \/ d = I32)))).
Lemma unsqueeze_axes_static value opset n axes : unsqueeze_axes_given value opset n axes -> unsqueeze_axes value opset n = IOk (Some axes).
Proof.
  unfold unsqueeze_axes. intros [[Ho Ha]|[Hn [i0 [i1 [rest [v [d [Hi [Hv [Hz H]]]]]]]]]].
  - unfold as_attribute in Ha. rewrite Ha. destruct (N.leb_spec 13 opset); [lia|]. reflexivity.
  - rewrite Hn, Hi. destruct H as [[[t [-> Hr]] Hl]|[[-> | ->] Hd]].
    + rewrite Hv, Hz, Hl. destruct (N.eqb_spec (tt_rank t) 0), (N.eqb_spec (tt_rank t) 1); cbn; try reflexivity. lia.
    + rewrite Hv, Hz. destruct Hd as [-> | ->]; reflexivity.
    + rewrite Hv, Hz. destruct Hd as [-> | ->]; reflexivity.
Qed.

(** Squeeze of any input. *)
Lemma squeeze_any value opset n i0 rest axes s out ty :
  ninputs n = i0 :: rest -> squeeze_axes_given value opset n axes -> axes <> [] ->
  N.of_nat (length s) < r63 -> fits (aty i0) s -> squeeze_of axes s out ->
  infer_squeeze value opset n = IOk ty -> fits ty out.
Proof.
  intros Hi Ha Hne Hr Hf Hof H. apply squeeze_axes_static in Ha. destruct (aty i0) as [d|d|r|t] eqn:Et.
  1-3: unfold infer_squeeze in H; rewrite Ha in H; cbn [iexpect ibind] in H; unfold first_input in H; rewrite Hi in H; cbn [ibind] in H; rewrite Et in H.
  - cbn in Hf. subst s. injection H as <-. cbn. destruct Hof as [_ [_ Hd]]. inversion Hd. reflexivity.
  - cbn in Hf. subst s. injection H as <-. cbn. destruct Hof as [_ [_ Hd]]. inversion Hd. reflexivity.
  - cbn in Hf. subst s. destruct axes as [|z [|? ?]].
    + congruence.
    + destruct (Z.eqb_spec z 0) as [->|]; [|discriminate]. injection H as <-. destruct Hof as [_ [Ho Hd]].
      assert (Hn : named 1 [0%Z] 0) by (exists 0%Z; split; [left; reflexivity|reflexivity]).
      cbn [length] in *. specialize (Ho 0%nat r Hn eq_refl). subst r. cbn.
      inversion Hd as [|? ? ? ? _ Hd'|? ? ? o Hno _]; subst; [inversion Hd'; reflexivity|contradiction].
    + discriminate.
  - eapply squeeze_sound; eauto; [destruct Hf as [Hf _]; lia|rewrite Et; exact Hf].
Qed.

Lemma reshape_count value n i0 rest t l req r t' :
  ninputs n = i0 :: rest -> aty i0 = TensorT t -> tt_shape t = Some l -> shape_given value n req ->
  In (-1)%Z req -> (forall i j, nth_error req i = Some (-1)%Z -> nth_error req j = Some (-1)%Z -> i = j) ->
  (forall o, In o l -> o <> None) ->
  infer_reshape value n = IOk (TensorT t') -> tt_shape t' = Some r -> (forall o, In o r -> o <> None) ->
  prodN (unopt r) mod w64 = prodN (unopt l) mod w64.
Proof.
  intros Hi Ht Hl Hg Hin Huniq Hall H Hr Hr'. apply shape_given_static in Hg. unfold infer_reshape in H.
  destruct (reshape_input_ok n); [|discriminate]. cbn [negb] in H. rewrite Hg in H. cbn [ibind] in H.
  destruct (attr_i64_or n "allowzero" 0) as [az| |]; try discriminate. cbn [ibind] in H.
  destruct (reshape_values_ok req az); [|discriminate]. cbn [negb] in H. unfold first_input, first_output in H. rewrite Hi in H. cbn [ibind] in H.
  destruct (noutputs n) as [|o0 orest]; [discriminate|]. cbn [ibind reshape_rank] in H. rewrite Ht in H.
  unfold reshape_output_type in H. destruct (N.of_nat (length req) =? 0); [discriminate|]. injection H as <-. cbn [tt_shape] in Hr.
  injection Hr as <-. rewrite Hl in *. apply (reshape_static_count (Some l) az req l); auto.
Qed.

Lemma count_one z : forall l, (count_z z l <= 1)%nat <->
  forall i j, nth_error l i = Some z -> nth_error l j = Some z -> i = j.
Proof.
  assert (Hz : forall l, count_z z l = 0%nat <-> ~ In z l).
  { induction l as [|x l IH]; cbn; [split; auto|]. unfold count_z in *. cbn. destruct (Z.eqb_spec z x); cbn.
    - split; [discriminate|intros H; exfalso; apply H; left; auto].
    - rewrite IH. split; intros H; [intros [E|E]; [congruence|tauto]|tauto]. }
  induction l as [|x l IH]; cbn.
  - split; [intros _ [|i] [|j]; discriminate|intros _; unfold count_z; cbn; lia].
  - unfold count_z in *. cbn. destruct (Z.eqb_spec z x) as [->|Hn]; cbn.
    + split.
      * intros H. assert (H0 : ~ In x l) by (apply Hz; lia).
        assert (Hno : forall i, nth_error l i <> Some x) by (intros i E; apply H0; eapply nth_error_In; exact E).
        intros [|i] [|j]; cbn; intros E1 E2; auto; [destruct (Hno _ E2)|destruct (Hno _ E1)|destruct (Hno _ E1)].
      * intros H. assert (H0 : length (filter (Z.eqb x) l) = 0%nat); [|lia]. apply Hz. intros Hin.
        apply In_nth_error in Hin. destruct Hin as [k Hk]. specialize (H 0%nat (S k) eq_refl Hk). discriminate.
    + rewrite IH. split.
      * intros H [|i] [|j]; cbn; intros E1 E2; try congruence. f_equal. apply H; assumption.
      * intros H i j E1 E2. specialize (H (S i) (S j) E1 E2). congruence.
Qed.
Lemma mem_z_In z l : mem_z z l = true <-> In z l.
Proof.
  unfold mem_z. rewrite existsb_exists. split.
  - intros [x [Hx E]]. apply Z.eqb_eq in E. subst. exact Hx.
  - intros H. exists z. split; [exact H|apply Z.eqb_refl].
Qed.
Lemma values_ok_iff l az : reshape_values_ok l az = true <->
  (forall i j, nth_error l i = Some (-1)%Z -> nth_error l j = Some (-1)%Z -> i = j) /\ ~ (az = 1%Z /\ In 0%Z l /\ In (-1)%Z l).
Proof.
  unfold reshape_values_ok. rewrite andb_true_iff, Nat.leb_le, count_one, negb_true_iff, <- !mem_z_In, <- Z.eqb_eq.
  destruct (az =? 1)%Z, (mem_z 0 l), (mem_z (-1) l); cbn; intuition congruence.
Qed.

Lemma reshape_rejects value n az req ty : attr_i64_or n "allowzero" 0 = IOk az ->
  shape_given value n req -> infer_reshape value n = IOk ty ->
  (forall i j, nth_error req i = Some (-1)%Z -> nth_error req j = Some (-1)%Z -> i = j) /\ ~ (az = 1%Z /\ In 0%Z req /\ In (-1)%Z req).
Proof.
  intros Haz Hg H. apply values_ok_iff. apply shape_given_static in Hg. unfold infer_reshape in H.
  destruct (reshape_input_ok n); [|discriminate]. cbn [negb] in H. rewrite Hg in H. cbn [ibind] in H. rewrite Haz in H. cbn [ibind] in H.
  destruct (reshape_values_ok req az); [reflexivity|discriminate].
Qed.

Lemma reshape_accepts value n i0 rest o0 orest az req :
  ninputs n = i0 :: rest -> noutputs n = o0 :: orest ->
  (forall i1 more, rest = i1 :: more -> match aty i1 with TensorT t => tt_rank t = 1%N /\ tt_dtype t = I64 | ShapeT _ => True | _ => False end) ->
  attr_i64_or n "allowzero" 0 = IOk az -> shape_given value n req ->
  (forall i j, nth_error req i = Some (-1)%Z -> nth_error req j = Some (-1)%Z -> i = j) ->
  ~ (az = 1%Z /\ In 0%Z req /\ In (-1)%Z req) ->
  exists ty, infer_reshape value n = IOk ty.
Proof.
  intros Hi Ho Ht Haz Hg Hu Hz. apply shape_given_static in Hg. unfold infer_reshape.
  assert (reshape_input_ok n = true) as ->.
  { unfold reshape_input_ok. rewrite Hi. destruct rest as [|i1 more]; [reflexivity|]. specialize (Ht i1 more eq_refl).
    destruct (aty i1); try contradiction; [reflexivity|]. destruct Ht as [-> ->]. reflexivity. }
  cbn [negb]. rewrite Hg. cbn [ibind]. rewrite Haz. cbn [ibind].
  rewrite (proj2 (values_ok_iff req az) (conj Hu Hz)). cbn [negb]. unfold first_input, first_output. rewrite Hi, Ho. cbn [ibind].
  unfold reshape_rank. cbn [ibind]. eexists. reflexivity.
Qed.
