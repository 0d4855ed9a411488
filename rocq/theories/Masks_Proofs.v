(** Lemmas for C63. *)
From Coq Require Import Lia ZifyBool ZifyNat ZifyN SpecFloat Sorted.
From Verif Require Import Tensor_Proofs Index_Proofs Lines_Proofs.
From Verif Require Export Masks_Model.
From Verif Require Import TensorRun_Model Index_Model.
Import Masks_Spec BinOps_Spec Tensor_Spec.
Local Open Scope N_scope.

Lemma mapo_at {A B} (f : A -> option B) : forall l m k, mapo f l = Some m -> nth_error m k = match nth_error l k with Some v => f v | None => None end.
Proof.
  induction l as [|a l IH]; cbn; intros m k H; [injection H as <-; destruct k; reflexivity|].
  destruct (f a) eqn:Ea, (mapo f l) eqn:E; try discriminate. injection H as <-. destruct k; cbn; [symmetry; exact Ea|apply IH; reflexivity].
Qed.
Lemma concat_at {A} r : forall (ll : list (list A)) c k row, (forall l, In l ll -> length l = r) -> nth_error ll c = Some row -> (k < r)%nat ->
  nth_error (concat ll) (c * r + k) = nth_error row k.
Proof.
  induction ll as [|l ll IH]; intros c k row H E Hk; [destruct c; discriminate|]. cbn. pose proof (H l (or_introl eq_refl)) as Hl.
  destruct c; cbn in E.
  - injection E as ->. cbn. rewrite nth_error_app1 by lia. reflexivity.
  - rewrite nth_error_app2 by (cbn; lia). replace (S c * r + k - length l)%nat with (c * r + k)%nat by (cbn; lia).
    apply IH; [intros; apply H; right; assumption|exact E|exact Hk].
Qed.
Lemma concat_len {A} r : forall (ll : list (list A)), (forall l, In l ll -> length l = r) -> length (concat ll) = (length ll * r)%nat.
Proof.
  induction ll as [|l ll IH]; intros H; [reflexivity|]. cbn. rewrite app_length, IH by (intros; apply H; right; assumption).
  rewrite (H l (or_introl eq_refl)). reflexivity.
Qed.
Lemma row_major s : forall c c' p p', (c < c')%nat -> nth_error (indices s) c = Some p -> nth_error (indices s) c' = Some p' -> offset s p < offset s p'.
Proof.
  intros c c' p p' H E E'.
  assert (A : forall k q, nth_error (indices s) k = Some q -> offset s q = N.of_nat k).
  { intros k q Eq. pose proof (map_nth_error (offset s) k (indices s) Eq) as M. rewrite offsets_upto in M. unfold upto in M.
    assert (Hk : (k < N.to_nat (prodN s))%nat).
    { assert (nth_error (map N.of_nat (seq 0 (N.to_nat (prodN s)))) k <> None) as Hn by congruence. apply nth_error_Some in Hn. rewrite map_length, seq_length in Hn. exact Hn. }
    assert (Sq : nth_error (seq 0 (N.to_nat (prodN s))) k = Some k).
    { rewrite (nth_error_nth' _ O) by (rewrite seq_length; exact Hk). rewrite seq_nth by exact Hk. reflexivity. }
    rewrite (map_nth_error N.of_nat k _ Sq) in M. congruence. }
  rewrite (A c p E), (A c' p' E'). lia.
Qed.
Lemma filter_order {A} (R : A -> A -> Prop) (f : A -> bool) : forall l, (forall c c' p p', (c < c')%nat -> nth_error l c = Some p -> nth_error l c' = Some p' -> R p p') ->
  forall c c' p p', (c < c')%nat -> nth_error (filter f l) c = Some p -> nth_error (filter f l) c' = Some p' -> R p p'.
Proof.
  induction l as [|a l IH]; intros H c c' p p' Hc E E'; [destruct c; discriminate|].
  assert (H' : forall c c' p p', (c < c')%nat -> nth_error l c = Some p -> nth_error l c' = Some p' -> R p p') by (intros c0 c1 p0 p1 H0 H1 H2; apply (H (S c0) (S c1)); [lia|exact H1|exact H2]).
  cbn in E, E'. destruct (f a); [|exact (IH H' c c' p p' Hc E E')].
  destruct c' as [|c']; [lia|]. destruct c as [|c]; cbn in E, E'; [|apply (IH H' c c'); [lia|exact E|exact E']].
  injection E as <-. apply nth_error_In in E'. apply filter_In in E'. destruct E' as [Hin _]. apply In_nth_error in Hin. destruct Hin as (k & Hk).
  apply (H O (S k)); [lia|reflexivity|exact Hk].
Qed.

(** ** NonZero *)
Definition nz_of (d : dtype) : nz_kind := match d with F64 | F32 | F16 | BF16 => NzFloat | BoolT => NzBool | _ => NzInt end.
Lemma not_equal_ok d v : in_dtype d v -> exists b, not_equal_zero (nz_of d) v = Some b /\ (b = true <-> nonzero v).
Proof.
  destruct v as [z|b|x]; cbn [in_dtype].
  - intros (lo & hi & E & H). assert (En : nz_of d = NzInt) by (destruct d; (reflexivity || discriminate E)). rewrite En. cbn. eexists. split; [reflexivity|]. destruct (Z.eqb_spec z 0); cbn; split; intros; congruence.
  - intros ->. cbn. eexists. split; [reflexivity|]. tauto.
  - intros (f & E). assert (En : nz_of d = NzFloat) by (destruct d; (reflexivity || discriminate E)). rewrite En. cbn. eexists. split; [reflexivity|].
    destruct x as [s|s| |s m e]; cbn; try destruct s; cbn; split; auto; intros H; try discriminate H; try contradiction H.
Qed.
Lemma nonzero_ok d (x : tensor elt) : twf x -> (forall v, In v (tdata x) -> in_dtype d v) ->
  exists bs z, mapo (not_equal_zero (nz_of d)) (tdata x) = Some bs /\ b_transpose2 (b_argwhere (mkT (tshape x) bs)) = Some z /\ nonzero_result x z.
Proof.
  intros W Hd. destruct (mapo_Some (not_equal_zero (nz_of d)) (tdata x)) as (bs & Hbs).
  { intros v Hv. destruct (not_equal_ok d v (Hd v Hv)) as (b & E & _). eauto. }
  exists bs. set (m := mkT (tshape x) bs). unfold b_argwhere. set (keep := fun idx : list N => _). set (ps := filter keep (indices (tshape m))).
  assert (G : forall p, valid_idx (tshape x) p -> exists v b, get x p = Some v /\ get m p = Some b /\ (b = true <-> nonzero v)).
  { intros p Hp. destruct (get_valid x p W Hp) as (v & Gv & Iv). destruct (not_equal_ok d v (Hd v Iv)) as (b & Eb & Hb). exists v, b. split; [exact Gv|]. split; [|exact Hb].
    unfold get, m. cbn [tdata tshape]. rewrite (mapo_at _ _ _ _ Hbs). unfold get in Gv. rewrite Gv. exact Eb. }
  set (r := length (tshape x)). set (n := length ps).
  assert (Len : forall l, In l (map (map Z.of_N) ps) -> length l = r).
  { intros l Hl. apply in_map_iff in Hl. destruct Hl as (p & <- & Hp). apply filter_In in Hp. destruct Hp as [Hp _]. apply indices_In in Hp. rewrite map_length. exact (Forall2_length Hp). }
  set (w := mkT [N.of_nat n; N.of_nat r] (concat (map (map Z.of_N) ps))).
  assert (Ww : twf w) by (unfold twf, w; cbn [tdata tshape prodN]; rewrite (concat_len r) by exact Len; rewrite map_length; fold n; lia).
  assert (Gw : forall c k p i, nth_error ps c = Some p -> nth_error p k = Some i -> get w [N.of_nat c; N.of_nat k] = Some (Z.of_N i)).
  { intros c k p i Ep Ei. unfold get, w. cbn [tshape tdata offset prodN]. replace (N.to_nat (N.of_nat c * (N.of_nat r * 1) + (N.of_nat k * 1 + 0))) with (c * r + k)%nat by lia.
    assert (Er : nth_error (map (map Z.of_N) ps) c = Some (map Z.of_N p)) by (apply map_nth_error; exact Ep).
    rewrite (concat_at r _ c k (map Z.of_N p) Len Er). { apply map_nth_error. exact Ei. }
    rewrite <- (Len (map Z.of_N p)) by (eapply nth_error_In; exact Er). rewrite map_length. apply nth_error_Some. congruence. }
  assert (Ex : exists z, b_transpose2 w = Some z /\ twf z /\ tshape z = [N.of_nat r; N.of_nat n] /\ forall k c, (k < r)%nat -> (c < n)%nat -> get z [N.of_nat k; N.of_nat c] = get w [N.of_nat c; N.of_nat k]).
  { unfold b_transpose2. change (tshape w) with [N.of_nat n; N.of_nat r]. cbv iota.
    destruct (tab_Some [N.of_nat r; N.of_nat n] (fun idx => match idx with [i; j] => get w [j; i] | _ => None end)) as (z & Hz).
    { intros idx Hi. inversion Hi as [|i ? ? ? H1 Hi1]; subst. inversion Hi1 as [|j ? ? ? H2 Hi2]; subst. inversion Hi2; subst.
      destruct (get_valid w [j; i] Ww) as (v & Gv & _); [constructor; [exact H2|constructor; [exact H1|constructor]]|]. eauto. }
    exists z. split; [exact Hz|]. destruct (tab_wf _ _ _ Hz) as (Wz & Sz). split; [exact Wz|]. split; [exact Sz|].
    intros k c Hk Hc. apply (get_tab _ _ _ [N.of_nat k; N.of_nat c] Hz). constructor; [lia|constructor; [lia|constructor]]. }
  destruct Ex as (z & Hz & Wz & Sz & Gz). exists z. split; [exact Hbs|].
  split; [exact Hz|]. split; [exact Wz|]. exists ps. split.
  - split.
    + intros p. unfold ps. rewrite filter_In, indices_In. cbn [m tshape]. split.
      * intros (Hp & Hk). split; [exact Hp|]. destruct (G p Hp) as (v & b & Gv & Gb & Hb). exists v. split; [exact Gv|]. apply Hb. unfold keep in Hk. rewrite Gb in Hk. exact Hk.
      * intros (Hp & v & Gv & Nv). split; [exact Hp|]. destruct (G p Hp) as (v' & b & Gv' & Gb & Hb). unfold keep. rewrite Gb. apply Hb. congruence.
    + unfold ps. cbn [m tshape]. apply (filter_order (fun p p' => offset (tshape x) p < offset (tshape x) p')). apply row_major.
  - split; [exact Sz|]. intros k c p i Ep Ei. rewrite Gz; [exact (Gw c k p i Ep Ei)| |].
    + assert (Hin : In (map Z.of_N p) (map (map Z.of_N) ps)) by (apply in_map; eapply nth_error_In; exact Ep). apply Len in Hin. rewrite map_length in Hin. rewrite <- Hin. apply nth_error_Some. congruence.
    + unfold n. apply nth_error_Some. congruence.
Qed.

(** ** Trilu and EyeLike *)
Lemma last_two_ok p i j : last_two (p ++ [i; j]) = Some (i, j).
Proof. unfold last_two. rewrite rev_app_distr. reflexivity. Qed.
Lemma ends_in_two (s : list N) : (2 <= length s)%nat -> exists p i j, s = p ++ [i; j].
Proof.
  intros H. destruct (rev s) as [|j [|i r]] eqn:E.
  - apply (f_equal (@length N)) in E. rewrite rev_length in E. cbn in E. lia.
  - apply (f_equal (@length N)) in E. rewrite rev_length in E. cbn in E. lia.
  - exists (rev r), i, j. rewrite <- (rev_involutive s), E. cbn. rewrite <- app_assoc. reflexivity.
Qed.
Lemma tri_ok u k d (x : tensor elt) : twf x -> d <> BoolT -> (2 <= length (tshape x))%nat ->
  exists z, b_tri u k d x = Some z /\ triangle (zero_of d) u k x z.
Proof.
  intros W Hd Hr. unfold b_tri. replace (dtype_beq d BoolT) with false by (destruct d; reflexivity || contradiction).
  match goal with |- context [tab _ ?h] => set (g := h) end.
  destruct (tab_Some (tshape x) g) as (z & Hz).
  { intros idx Hi. destruct (ends_in_two idx) as (p & i & j & ->); [rewrite (Forall2_length Hi); exact Hr|].
    destruct (get_valid x _ W Hi) as (v & Gv & _). unfold g. rewrite last_two_ok. cbn [obind fst snd]. assert (A : forall b : bool, exists y, (if b then Some (zero_of d) else get x (p ++ [i; j])) = Some y) by (intros []; eauto). apply A. }
  exists z. split; [exact Hz|]. destruct (tab_wf _ _ _ Hz) as (Wz & Sz). split; [exact Wz|]. split; [exact Sz|].
  intros p i j Hi. rewrite (get_tab _ _ _ _ Hz Hi). unfold g. rewrite last_two_ok. cbn [obind fst snd]. unfold kept.
  destruct u.
  - destruct (Z.ltb_spec (- k) (Z.of_N i - Z.of_N j)), (Z.leb_spec k (Z.of_N j - Z.of_N i)); try reflexivity; lia.
  - destruct (Z.ltb_spec (Z.of_N i - Z.of_N j) (- k)), (Z.leb_spec (Z.of_N j - Z.of_N i) k); try reflexivity; lia.
Qed.
Definition conv_to (d : dtype) : option (bool * dtype) := match d with BoolT => None | F64 | F32 | F16 | BF16 => Some (false, d) | _ => Some (true, d) end.
Lemma conv_ok d b : b_of_bool (conv_to d) b = Some (d, if b then one_of d else zero_of d).
Proof. destruct d, b; reflexivity. Qed.
Lemma mapo_conv d : forall l, mapo (fun b => b_of_bool (conv_to d) (negb b)) l = Some (map (fun b : bool => (d, if b then zero_of d else one_of d)) l).
Proof. induction l as [|b l IH]; [reflexivity|]. cbn. rewrite conv_ok, IH. destruct b; reflexivity. Qed.
Lemma eye_ok k d (s : list N) : length s = 2%nat -> exists m l, b_diag_mask s k = Some m /\ mapo (fun b => b_of_bool (conv_to d) (negb b)) (tdata m) = Some l /\
  eye (zero_of d) (one_of d) k s (mkT s (map snd l)).
Proof.
  intros Hs. unfold b_diag_mask. match goal with |- context [tab _ ?h] => set (g := h) end.
  destruct (tab_Some s g) as (m & Hm).
  { intros idx Hi. destruct (ends_in_two idx) as (p & i & j & ->); [rewrite (Forall2_length Hi); lia|]. unfold g. rewrite last_two_ok. cbn. eauto. }
  destruct (tab_wf _ _ _ Hm) as (Wm & Sm). exists m, (map (fun b : bool => (d, if b then zero_of d else one_of d)) (tdata m)).
  split; [exact Hm|]. split; [apply mapo_conv|]. split; [unfold twf in *; cbn [tdata tshape]; rewrite !map_length, Wm, Sm; reflexivity|]. split; [reflexivity|].
  intros i j Hi. pose proof (get_tab _ _ _ _ Hm Hi) as G. unfold g in G. change [i; j] with ([] ++ [i; j]) in G at 2. rewrite last_two_ok in G. cbn [option_map fst snd] in G.
  unfold get in *. cbn [tdata tshape]. rewrite Sm in G. rewrite map_map. rewrite (map_nth_error _ _ _ G). f_equal. cbn [snd].
  destruct (Z.eqb_spec (Z.of_N i - Z.of_N j) (- k)), (Z.eqb_spec (Z.of_N j - Z.of_N i) k); cbn; reflexivity || lia.
Qed.

(** ** ConstantOfShape *)
Lemma usize_id (dims : list Z) : (forall z, In z dims -> (0 <= z < 18446744073709551616)%Z) -> map (fun v => Z.of_N (to_usize v)) dims = dims.
Proof.
  induction dims as [|z l IH]; intros H; [reflexivity|]. cbn. rewrite IH by (intros; apply H; right; assumption). f_equal. unfold to_usize.
  specialize (H z (or_introl eq_refl)). rewrite Z.mod_small by exact H. lia.
Qed.
Lemma usize_dims (dims : list Z) : (forall z, In z dims -> (0 <= z < 18446744073709551616)%Z) -> Forall2 (fun d m => d = Z.of_N m) dims (map to_usize dims).
Proof.
  induction dims as [|z l IH]; intros H; [constructor|]. cbn. constructor; [|apply IH; intros; apply H; right; assumption]. unfold to_usize.
  specialize (H z (or_introl eq_refl)). rewrite Z.mod_small by exact H. lia.
Qed.
Lemma tab_const {A} s (v : A) : exists t, tab s (fun _ => Some v) = Some t /\ twf t /\ tshape t = s /\ forall p, valid_idx s p -> get t p = Some v.
Proof.
  destruct (tab_Some s (fun _ => Some v)) as (t & Ht); [eauto|]. exists t. split; [exact Ht|]. destruct (tab_wf _ _ _ Ht) as (W & S). split; [exact W|]. split; [exact S|].
  intros p Hp. exact (get_tab _ _ _ _ Ht Hp).
Qed.
Lemma prod_ones k : prodN (repeat 1 k) = 1.
Proof. induction k; cbn [repeat prodN]; [reflexivity|]. rewrite IHk. reflexivity. Qed.
Lemma expand_ones : forall dims : list Z, (forall z, In z dims -> (0 <= z)%Z) ->
  mapo (fun dv => expand_dim (fst dv) (snd dv)) (combine (repeat 1 (length dims)) dims) = Some (map Z.to_N dims).
Proof.
  induction dims as [|z l IH]; intros H; [reflexivity|]. cbn [length repeat combine mapo fst snd map]. rewrite IH by (intros; apply H; right; assumption).
  unfold expand_dim. specialize (H z (or_introl eq_refl)). replace (z =? -1)%Z with false by lia. replace (z <? 0)%Z with false by lia. rewrite Bool.orb_true_r. reflexivity.
Qed.
Lemma ones_place : forall k (idx : list N), offset (repeat 1 k) (map (fun di => if fst di =? 1 then 0 else snd di) (combine (repeat 1 k) idx)) = 0.
Proof. induction k as [|k IH]; intros [|i idx]; cbn [repeat combine map offset fst snd]; try reflexivity. rewrite IH. reflexivity. Qed.
Lemma fill_ok (v : elt) (dims : list Z) : (forall z, In z dims -> (0 <= z)%Z) ->
  exists t z, b_reshape (repeat 1 (length dims)) (mkT [1] [v]) = Some t /\ b_expand dims t = Some z /\ filled v dims z.
Proof.
  intros H. exists (mkT (repeat 1 (length dims)) [v]).
  assert (E : b_reshape (repeat 1 (length dims)) (mkT [1] [v]) = Some (mkT (repeat 1 (length dims)) [v])).
  { unfold b_reshape, reshape_flat. cbn [tdata length]. rewrite prod_ones. reflexivity. }
  unfold b_expand. cbn [tshape]. rewrite repeat_length, Nat.leb_refl, Nat.sub_diag. cbn [firstn skipn forallb andb map app]. rewrite expand_ones by exact H. cbn [obind].
  match goal with |- context [tab _ ?h] => set (g := h) end.
  assert (Eg : forall p, g p = Some v) by (intros p; unfold g, get; cbn [tshape tdata]; rewrite ones_place; reflexivity).
  destruct (tab_Some (map Z.to_N dims) g) as (z & Hz); [intros idx _; exists v; apply Eg|]. exists z. split; [exact E|]. split; [exact Hz|].
  destruct (tab_wf _ _ _ Hz) as (Wz & Sz). split; [exact Wz|]. rewrite Sz. split.
  - clear - H. induction dims as [|z l IH]; [constructor|]. cbn. constructor; [specialize (H z (or_introl eq_refl)); lia|apply IH; intros; apply H; right; assumption].
  - intros p Hp. rewrite (get_tab _ _ _ _ Hz Hp). apply Eg.
Qed.
