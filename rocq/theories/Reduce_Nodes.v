(** Lemmas about the code emitted for a reduction of integers or booleans. *)
From Coq Require Import Lia ZifyBool ZifyNat ZifyN Permutation.
From Verif Require Import Tensor_Proofs Fold_Proofs BinOps_Proofs ShapeOps_Proofs AxisOps_Proofs RankOps_Proofs ShapeRun_Proofs Index_Proofs TensorRun_Proofs TensorRun_Nodes.
From Verif Require Import Reduce_Spec Reduce_Model Reduce_Proofs Reduce_Elems Reduce_Core.
Import Tensor_Spec BinOps_Spec RankOps_Spec ShapeRun_Spec TensorRun_Spec.
Local Open Scope N_scope.

(** ** The groups of [x] can be folded one dimension after the other, and give
    what [combine] gives. *)
Definition foldable {A} (alg : algebra A) (m : meth) (x : tensor A) (axes : list Z) (combine : list A -> option A) : Prop :=
  exists (T : list A -> option A) (ok : list A -> Prop) (ne : bool),
    (forall l, ok l -> fold_of alg m l = T l /\ T l <> None) /\
    (forall l l', Permutation l l' -> ok l -> ok l' /\ T l = T l') /\
    (forall ls, (ne = true -> even ls) -> ok (concat ls) -> Forall ok ls /\ forall vs, mapo T ls = Some vs -> ok vs /\ T vs = T (concat ls)) /\
    (forall v, ok [v] -> T [v] = Some v) /\
    (ne = true -> prodN (tshape x) <> 0) /\
    (forall j l, mapo (get x) (group (reduced_axis (length (tshape x)) axes) (tshape x) j) = Some l ->
       valid_idx (kdims (reduced_axis (length (tshape x)) axes) 0 (tshape x)) j -> ok l /\ T l = combine l).

(** What the results are, given the type recorded for them. *)
Definition out_type (d : dtype) (r : nat) (axes : list Z) (keep : bool) (ty : argty) : Prop :=
  if negb keep && (Nat.eqb (length axes) 0 || Nat.eqb (length axes) r) then ty = ScalarTensor d
  else exists s, ty = TensorT (mkTT d (N.of_nat (if keep then r else r - length axes)) s).
Definition wrap (ty : argty) (e : rexp) : rexp := match ty with ScalarTensor _ => XOne e | _ => e end.
Definition held_as {A} (ty : argty) (t z : tensor A) : Prop :=
  match ty with
  | TensorT y => t = z /\ N.of_nat (length (tshape z)) = tt_rank y
  | ScalarTensor _ => tshape z = [] /\ t = mkT [1] (tdata z)
  | _ => False
  end.

Section Out.
  Context {A : Type}.
  Variables (alg : algebra A) (m : meth) (x z : tensor A) (axes : list Z) (combine : list A -> option A).
  Variables (env : string -> option (tensor A)) (e : rexp) (keep : bool) (d : dtype) (ty : argty).
  Let r := length (tshape x).
  Hypothesis F : foldable alg m x axes combine.
  Hypothesis W : twf x.
  Hypothesis Hr : N.of_nat r < r63.
  Hypothesis H0 : (0 < r)%nat.
  Hypothesis He : reval alg env e = Some x.
  Hypothesis Hz : reduces combine axes keep x z.
  Hypothesis Ht : out_type d r axes keep ty.

  Lemma reshape_one (v : A) : b_reshape_to [1%Z] (mkT [1] [v]) = Some (mkT [1] [v]).
  Proof. reflexivity. Qed.
  Lemma axes_len : axes <> [] -> (length axes <= r)%nat.
  Proof.
    intros Ha. destruct Hz as (k & ((Hv & Hn) & _) & _). fold r in Hv, Hn. rewrite <- (map_length (position r)). transitivity (length (seq 0 r)); [|rewrite seq_length; lia]. apply NoDup_incl_length; [exact Hn|].
    intros i Hi. apply in_map_iff in Hi. destruct Hi as (a & <- & _). apply in_seq. split; [lia|]. apply position_lt. exact H0.
  Qed.
  Lemma kept_len : keep = true -> length (tshape z) = r.
  Proof. intros K. destruct Hz as (k & _ & _ & (_ & Rz) & _). rewrite K in Rz. exact (proj1 Rz). Qed.

  Lemma numeric : keep = true \/ (length axes < r)%nat ->
    exists rk t, out_rank_of ty = Some rk /\ reval alg env (wrap ty (forward_reduce m e (dims_of r axes) keep rk)) = Some t /\ held_as ty t z.
  Proof.
    intros Hc. destruct F as (T & ok & ne & H1 & H2 & H3 & H4 & Hne & G). unfold out_type in Ht.
    destruct (Bool.bool_dec keep true) as [K|K].
    - rewrite K in Ht. cbn [negb andb] in Ht. destruct Ht as [s ->]. exists (N.of_nat r), z. split; [reflexivity|]. split; [|split; [reflexivity|cbn; rewrite kept_len by exact K; reflexivity]].
      cbn [wrap]. destruct (list_eq_dec Z.eq_dec axes []) as [Ha|Ha].
      + eapply core_keep_all; eauto.
      + eapply core_keep_dims; eauto.
    - apply Bool.not_true_is_false in K. destruct Hc as [Hc|Hc]; [congruence|]. rewrite K in Ht. cbn [negb andb] in Ht.
      destruct (list_eq_dec Z.eq_dec axes []) as [Ha|Ha].
      + rewrite Ha in Ht. cbn in Ht. rewrite Ht. destruct (core_all_scalar alg m T ok H1 x W axes combine G env e He keep z Hz Ha K) as (Sz & v & Dz & E).
        exists 1, (mkT [1] [v]). split; [reflexivity|]. split; [|split; [exact Sz|rewrite Dz; reflexivity]]. cbn [wrap reval]. fold r in E. rewrite E. reflexivity.
      +
        assert (L' : (length (tshape z) + length axes = r)%nat) by (eapply core_len; eauto).
        replace (Nat.eqb (length axes) 0) with false in Ht by (symmetry; apply Nat.eqb_neq; destruct axes; [contradiction|discriminate]).
        replace (Nat.eqb (length axes) r) with false in Ht by (symmetry; apply Nat.eqb_neq; lia). cbn [orb] in Ht. destruct Ht as [s ->].
        exists (N.of_nat (r - length axes)), z. split; [reflexivity|]. split; [|split; [reflexivity|cbn; lia]]. cbn [wrap].
        eapply core_drop; eauto. fold r. lia.
  Qed.
  Lemma boolean y : e = XVar y ->
    exists rk t, out_rank_of ty = Some rk /\ reval alg env (bool_reduce m y (dims_of r axes) keep ty rk) = Some t /\ held_as ty t z.
  Proof.
    intros Ey. destruct F as (T & ok & ne & H1 & H2 & H3 & H4 & Hne & G). unfold out_type in Ht. unfold bool_reduce. rewrite <- Ey.
    destruct (Bool.bool_dec keep true) as [K|K].
    - rewrite K in Ht. cbn [negb andb] in Ht. destruct Ht as [s ->]. exists (N.of_nat r), z. split; [reflexivity|]. split; [|split; [reflexivity|cbn; rewrite kept_len by exact K; reflexivity]].
      destruct (list_eq_dec Z.eq_dec axes []) as [Ha|Ha].
      + pose proof (core_keep_all alg m T ok H1 x W axes combine G env e He keep z Hz Ha K H0) as E. fold r in E.
        replace (dims_of r axes) with (@nil N) in * by (rewrite Ha; reflexivity). rewrite K in E |- *. exact E.
      + assert (E : reval alg env (forward_reduce m e (dims_of r axes) keep (N.of_nat r)) = Some z) by (eapply core_keep_dims; eauto).
        rewrite K in E |- *. pose proof (dims_some r axes Ha) as Hd. destruct (dims_of r axes); [contradiction|]. exact E.
    - apply Bool.not_true_is_false in K. rewrite K in Ht. cbn [negb andb] in Ht.
      destruct (list_eq_dec Z.eq_dec axes []) as [Ha|Ha].
      + rewrite Ha in Ht. cbn in Ht. rewrite Ht, K. destruct (core_all_scalar alg m T ok H1 x W axes combine G env e He keep z Hz Ha K) as (Sz & v & Dz & E).
        exists 1, (mkT [1] [v]). split; [reflexivity|]. split; [|split; [exact Sz|rewrite Dz; reflexivity]].
        fold r in E. rewrite K in E. replace (dims_of r axes) with (@nil N) in * by (rewrite Ha; reflexivity). cbn [forward_reduce] in E. cbn [reval] in E |- *. rewrite E. reflexivity.
      + assert (L' : (length (tshape z) + length axes = r)%nat) by (eapply core_len; eauto).
        replace (Nat.eqb (length axes) 0) with false in Ht by (symmetry; apply Nat.eqb_neq; destruct axes; [contradiction|discriminate]).
        cbn [orb] in Ht. rewrite K. pose proof (dims_some r axes Ha) as Hd.
        destruct (Nat.eqb_spec (length axes) r) as [El|El].
        * rewrite Ht. assert (E : tshape z = [] /\ exists v, tdata z = [v] /\ reval alg env (XOne (fold_left (XDim m) (dims_of r axes) e)) = Some (mkT [1] [v])) by (eapply core_every; eauto).
          destruct E as (Sz & v & Dz & E). exists 1, (mkT [1] [v]). split; [reflexivity|]. split; [|split; [exact Sz|rewrite Dz; reflexivity]].
          destruct (dims_of r axes); [contradiction|]. exact E.
        * destruct Ht as [s ->]. exists (N.of_nat (r - length axes)), z. split; [reflexivity|]. split; [|split; [reflexivity|cbn; lia]].
          assert (E : reval alg env (XSqueeze (fold_left (XDim m) (dims_of r axes) e) (N.of_nat (r - length axes)) (dims_of r axes)) = Some z).
          { pose proof (axes_len Ha). eapply core_squeezed; eauto; fold r; lia. }
          destruct (N.eqb_spec (N.of_nat (r - length axes)) 0); [lia|]. destruct (dims_of r axes); [contradiction|]. exact E.
  Qed.
End Out.

(** ** Sums, products and extrema *)
Lemma fold_left_fits d f l : forall acc, (forall done todo, l = done ++ todo -> zfits d (fold_left f done acc) = true) -> fold_fits d f acc l = Some (EI (fold_left f l acc)).
Proof.
  induction l as [|z l IH]; intros acc H; [reflexivity|]. cbn [fold_fits fold_left]. rewrite (H [z] l eq_refl : zfits d (f acc z) = true). apply IH. intros done todo E.
  apply (H (z :: done) todo). rewrite E. reflexivity.
Qed.
Lemma ints_of d l : Forall (in_dtype d) l -> forall zs, mapo int_of l = Some zs -> l = map EI zs /\ Forall (fun z => zfits d z = true) zs.
Proof.
  induction 1 as [|v l Hv F IH]; intros zs E; cbn in E; [injection E as <-; auto|]. destruct v as [z|b|q]; cbn in E; try discriminate.
  destruct (mapo int_of l) as [zs'|]; [|discriminate]. injection E as <-. destruct (IH zs' eq_refl) as [-> F']. split; [reflexivity|]. constructor; [|exact F']. apply fits_range. exact Hv.
Qed.
Lemma got_in {A} (x : tensor A) P idxs l : Forall P (tdata x) -> mapo (get x) idxs = Some l -> Forall P l.
Proof.
  intros F E. apply Forall_forall. intros v Hv. destruct (mapo_In_rev _ _ _ _ E Hv) as (i & _ & Ei). exact (gets_in P x i v F Ei).
Qed.
(** The groups are defined where the result is. *)
Lemma group_defined {A} (combine : list A -> option A) axes keep (x z : tensor A) : reduces combine axes keep x z ->
  forall j l, mapo (get x) (group (reduced_axis (length (tshape x)) axes) (tshape x) j) = Some l ->
  valid_idx (kdims (reduced_axis (length (tshape x)) axes) 0 (tshape x)) j -> exists v, combine l = Some v.
Proof.
  intros (k & Rk & Tk & _) j l E V. rewrite <- (kept_shape _ _ _ Rk) in V. apply indices_In in V. unfold tab in Tk. destruct (mapo _ (indices (tshape k))) as [data|] eqn:Em; [|discriminate].
  destruct (mapo_In _ _ _ _ Em V) as [v Hv]. rewrite E in Hv. eauto.
Qed.
Lemma summary_int d op l v : d <> BoolT -> summary d op l = Some v -> exists zs, mapo int_of l = Some zs /\ of_ints d op zs = Some v.
Proof. intros N H. unfold summary in H. destruct d; try contradiction; (destruct (mapo int_of l) as [zs|]; [eauto|discriminate]). Qed.
Lemma summary_eq d op l zs : d <> BoolT -> mapo int_of l = Some zs -> summary d op l = of_ints d op zs.
Proof. intros N H. unfold summary. rewrite H. destruct d; try contradiction; reflexivity. Qed.

Lemma monoid_foldable d m op f u w (x z : tensor elt) axes keep : (forall l, int_fold d m l = fold_fits d f u l) -> d <> BoolT ->
  (forall a b c, f a (f b c) = f (f a b) c) -> (forall a b, f a b = f b a) -> (forall a, f u a = a) -> w u = u -> (0 <= u)%Z ->
  (forall z, u <= w z /\ Z.abs z <= w z)%Z -> (forall a b, w (f a b) <= f (w a) (w b))%Z ->
  (forall a b a' b', u <= a <= a' -> u <= b <= b' -> u <= f a b <= f a' b')%Z -> (forall a b, 0 <= a -> 0 <= b -> 0 <= f a b)%Z ->
  (forall l, of_ints d op l = fitted d (fold_right f u l)) ->
  Forall (in_dtype d) (tdata x) -> reduces (summary d op) axes keep x z ->
  (forall j l zs, mapo (get x) (group (reduced_axis (length (tshape x)) axes) (tshape x) j) = Some l -> mapo int_of l = Some zs ->
     valid_idx (kdims (reduced_axis (length (tshape x)) axes) 0 (tshape x)) j -> zfits d (fold_right f u (map w zs)) = true) ->
  foldable (elements d) m x axes (summary d op).
Proof.
  intros Code N As Co Un Wu U0 Wl Wf Mo Po Ho F R Sz. exists (T_m d f u), (ok_m d f u w), false. split; [|split; [|split; [|split; [|split; [discriminate|]]]]].
  - exact (m_H1 d m f u w Code N As Co Un Wu U0 Wl Wf Mo Po).
  - exact (m_H2 d f u w As Co).
  - exact (m_H3 d m f u w Code As Co Un Wu U0 Wl Wf Mo Po).
  - exact (m_H4 d f u w Co Un).
  - intros j l E V. destruct (group_defined _ _ _ _ _ R j l E V) as [v Hv]. destruct (summary_int _ _ _ _ N Hv) as (zs & En & _).
    destruct (ints_of d l (got_in _ _ _ _ F E) zs En) as [_ Ff]. split.
    + exists zs. split; [exact En|]. split; [exact (Sz j l zs E En V)|exact Ff].
    + rewrite (summary_eq d op l zs N En), Ho. unfold T_m. rewrite En. reflexivity.
Qed.
Lemma sum_foldable d (x z : tensor elt) axes keep : d <> BoolT -> Forall (in_dtype d) (tdata x) -> reduces (summary d RSum) axes keep x z ->
  (forall j l zs, mapo (get x) (group (reduced_axis (length (tshape x)) axes) (tshape x) j) = Some l -> mapo int_of l = Some zs ->
     valid_idx (kdims (reduced_axis (length (tshape x)) axes) 0 (tshape x)) j -> zfits d (zsum (map Z.abs zs)) = true) ->
  foldable (elements d) MSum x axes (summary d RSum).
Proof.
  intros N F R Sz. apply (monoid_foldable d MSum RSum Z.add 0%Z Z.abs x z axes keep); try assumption; try reflexivity; intros; lia.
Qed.
Lemma prod_foldable d (x z : tensor elt) axes keep : d <> BoolT -> Forall (in_dtype d) (tdata x) -> reduces (summary d RProd) axes keep x z ->
  (forall j l zs, mapo (get x) (group (reduced_axis (length (tshape x)) axes) (tshape x) j) = Some l -> mapo int_of l = Some zs ->
     zfits d (zprod (map (fun z => Z.max 1 (Z.abs z)) zs)) = true) ->
  foldable (elements d) MProd x axes (summary d RProd).
Proof.
  intros N F R Sz. apply (monoid_foldable d MProd RProd Z.mul 1%Z (fun z => Z.max 1 (Z.abs z)) x z axes keep); try assumption; try reflexivity; try (intros; lia).
  - intros a b. rewrite Z.abs_mul. nia.
  - intros a b a' b' Ha Hb. split; [nia|]. apply Z.mul_le_mono_nonneg; lia.
  - intros j l zs E En _. exact (Sz j l zs E En).
Qed.
Lemma group_some h s j : prodN s <> 0 -> valid_idx (kdims h 0 s) j -> group h s j <> [].
Proof.
  intros Hp V C. assert (I : In j (group h s j)); [|rewrite C in I; destruct I]. unfold group. apply filter_In. split; [apply indices_In; exact (kdims_valid h s j Hp V)|].
  apply agree_spec. reflexivity.
Qed.
Lemma ext_foldable {B} d m op (f : B -> B -> B) (pick : elt -> option B) (emb : B -> elt) (good : B -> Prop) (x z : tensor elt) axes keep :
  (forall b, pick (emb b) = Some b) -> (forall v b, pick v = Some b -> v = emb b) ->
  (forall a b c, f a (f b c) = f (f a b) c) -> (forall a b, f a b = f b a) -> (forall a b, f a b = a \/ f a b = b) ->
  (forall l bs, mapo pick l = Some bs -> bs <> [] -> Forall good bs -> fold_of (elements d) m l = option_map emb (fold1 f bs)) ->
  (forall l v, summary d op l = Some v -> exists bs, mapo pick l = Some bs) ->
  (forall l bs, l <> [] -> mapo pick l = Some bs -> summary d op l = option_map emb (fold1 f bs)) ->
  (forall l bs, Forall (in_dtype d) l -> mapo pick l = Some bs -> Forall good bs) ->
  Forall (in_dtype d) (tdata x) -> reduces (summary d op) axes keep x z -> prodN (tshape x) <> 0 ->
  foldable (elements d) m x axes (summary d op).
Proof.
  intros PE EP As Co Se Code S1 S2 Gd F R Hp. exists (T_x f pick emb), (ok_x pick good), true. split; [|split; [|split; [|split; [|split; [auto|]]]]].
  - intros l. apply x_H1; assumption.
  - intros l l'. apply x_H2; assumption.
  - intros ls. apply x_H3; assumption.
  - intros v. apply x_H4; assumption.
  - intros j l E V. destruct (group_defined _ _ _ _ _ R j l E V) as [v Hv]. destruct (S1 l v Hv) as [bs Eb].
    assert (Nl : l <> []). { intros C. apply mapo_length in E. rewrite C in E. pose proof (group_some _ _ _ Hp V) as Ng. destruct (group _ _ _); [contradiction|discriminate]. }
    split; [split; [exact Nl|]; exists bs; split; [exact Eb|]; exact (Gd l bs (got_in _ _ _ _ F E) Eb)|].
    rewrite (S2 l bs Nl Eb). unfold T_x. rewrite Eb. reflexivity.
Qed.
Lemma fold_left_right {B} (f : B -> B -> B) : (forall a b c, f a (f b c) = f (f a b) c) -> (forall a b, f a b = f b a) -> forall l z, fold_left f l z = fold_right f z l.
Proof.
  intros As Co l z. apply fold_symmetric; intros; [apply As|apply Co].
Qed.
Lemma fold_left_sel (P : Z -> Prop) (f : Z -> Z -> Z) : (forall a b, f a b = a \/ f a b = b) -> forall l a, P a -> Forall P l -> P (fold_left f l a).
Proof.
  intros Se. induction l as [|z l IH]; intros a Pa F; [exact Pa|]. inversion F; subst. cbn. apply IH; [|assumption]. destruct (Se a z) as [->| ->]; assumption.
Qed.
Lemma extremum_code d m (f : Z -> Z -> Z) : d <> BoolT -> (forall z l, int_fold d m (z :: l) = fold_fits d f z l) ->
  (forall a b c, f a (f b c) = f (f a b) c) -> (forall a b, f a b = f b a) -> (forall a b, f a b = a \/ f a b = b) ->
  forall l bs, mapo int_of l = Some bs -> bs <> [] -> Forall (fun z => zfits d z = true) bs -> fold_of (elements d) m l = option_map EI (fold1 f bs).
Proof.
  intros N Cf As Co Se l bs E Nb F. cbn [fold_of elements].
  replace (match d with BoolT => obind (mapo bool_of l) (bool_fold m) | _ => obind (mapo int_of l) (int_fold d m) end) with (obind (mapo int_of l) (int_fold d m)) by (destruct d; congruence).
  rewrite E. cbn [obind]. destruct bs as [|z bs]; [contradiction|]. rewrite Cf. cbn [fold1 option_map]. rewrite <- (fold_left_right f As Co). apply fold_left_fits.
  intros done todo Eb. inversion F as [|? ? Fz Fr]; subst. apply Forall_app in Fr. apply (fold_left_sel (fun z => zfits d z = true)); tauto.
Qed.
Lemma int_ext_foldable d op m (f : Z -> Z -> Z) (x z : tensor elt) axes keep : d <> BoolT -> (forall z l, int_fold d m (z :: l) = fold_fits d f z l) ->
  (forall a b c, f a (f b c) = f (f a b) c) -> (forall a b, f a b = f b a) -> (forall a b, f a b = a \/ f a b = b) ->
  (forall l, of_ints d op l = option_map EI (fold1 f l)) ->
  Forall (in_dtype d) (tdata x) -> reduces (summary d op) axes keep x z -> prodN (tshape x) <> 0 ->
  foldable (elements d) m x axes (summary d op).
Proof.
  intros N Cf As Co Se Ho F R Hp. apply (ext_foldable d m op f int_of EI (fun z => zfits d z = true) x z axes keep); try assumption; try reflexivity.
  - intros [b|b|b] c H; cbn in H; try discriminate. injection H as <-. reflexivity.
  - apply extremum_code; assumption.
  - intros l v H. destruct (summary_int _ _ _ _ N H) as (zs & E & _). eauto.
  - intros l bs _ E. rewrite (summary_eq d op l bs N E). apply Ho.
  - intros l bs Fl E. exact (proj2 (ints_of d l Fl bs E)).
Qed.
Lemma bool_ext_foldable op m (f : bool -> bool -> bool) (u : bool) (x z : tensor elt) axes keep :
  (forall l, bool_fold m l = Some (EB (fold_left f l u))) -> (forall b, f u b = b) ->
  (forall a b c, f a (f b c) = f (f a b) c) -> (forall a b, f a b = f b a) -> (forall a b, f a b = a \/ f a b = b) ->
  (forall l, l <> [] -> of_bools op l = option_map EB (fold1 f l)) ->
  Forall (in_dtype BoolT) (tdata x) -> reduces (summary BoolT op) axes keep x z -> prodN (tshape x) <> 0 ->
  foldable (elements BoolT) m x axes (summary BoolT op).
Proof.
  intros Cf Un As Co Se Ho F R Hp. apply (ext_foldable BoolT m op f bool_of EB (fun _ => True) x z axes keep); try assumption; try reflexivity.
  - intros [b|b|b] c H; cbn in H; try discriminate. injection H as <-. reflexivity.
  - intros l bs E Nb _. cbn [fold_of elements]. rewrite E. cbn [obind]. rewrite Cf. destruct bs as [|b bs]; [contradiction|]. cbn [fold_left fold1 option_map].
    rewrite Un, (fold_left_right f As Co). reflexivity.
  - intros l v H. unfold summary in H. destruct (mapo bool_of l); [eauto|discriminate].
  - intros l bs Nl E. unfold summary. rewrite E. apply Ho. intros C. apply mapo_length in E. rewrite C in E. destruct l; [contradiction|discriminate].
  - intros l bs _ _. apply Forall_forall. trivial.
Qed.
Lemma any_fold1 l : l <> [] -> of_bools RMax l = option_map EB (fold1 orb l).
Proof.
  destruct l as [|b l]; [contradiction|]. intros _. cbn [of_bools fold1 option_map]. do 2 f_equal. induction l as [|c l IH]; cbn in *; [apply orb_false_r|].
  rewrite <- IH. destruct b, c; reflexivity.
Qed.
Lemma all_fold1 l : l <> [] -> of_bools RMin l = option_map EB (fold1 andb l).
Proof.
  destruct l as [|b l]; [contradiction|]. intros _. cbn [of_bools fold1 option_map]. do 2 f_equal. induction l as [|c l IH]; cbn in *; [apply andb_true_r|].
  rewrite <- IH. destruct b, c; reflexivity.
Qed.

(** ** Sums of squares and of magnitudes *)
Lemma mapo_nth {A B} (f : A -> option B) : forall l l' k, mapo f l = Some l' -> nth_error l' k = obind (nth_error l k) f.
Proof.
  induction l as [|a l IH]; intros l' k E; cbn in E; [injection E as <-; destruct k; reflexivity|].
  destruct (f a) as [b|] eqn:Ea; [|discriminate]. destruct (mapo f l) as [r|] eqn:Er; [|discriminate]. injection E as <-. destruct k as [|k]; cbn; [symmetry; exact Ea|]. apply IH. reflexivity.
Qed.
Fixpoint zeroed (h : nat -> bool) (i : nat) (idx : list N) : list N := match idx with [] => [] | k :: r => (if h i then 0 else k) :: zeroed h (S i) r end.
Lemma zeroed_nth h : forall idx i k, nth k (zeroed h i idx) 0 = if h (i + k)%nat then 0 else nth k idx 0.
Proof.
  induction idx as [|a idx IH]; intros i k; cbn [zeroed]; [destruct k, (h _); reflexivity|]. destruct k as [|k]; cbn [nth]; [rewrite Nat.add_0_r; destruct (h i); reflexivity|].
  rewrite IH. replace (S i + k)%nat with (i + S k)%nat by lia. reflexivity.
Qed.
Lemma zeroed_valid h : forall s idx i, valid_idx s idx -> valid_idx (kdims h i s) (zeroed h i idx).
Proof.
  intros s idx i V. revert i. induction V as [|k d idx s Hk V IH]; intros i; cbn; constructor; [destruct (h i); lia|]. apply IH.
Qed.
Lemma in_own_group h s i : valid_idx s i -> In i (group h s (zeroed h 0 i)).
Proof.
  intros V. unfold group. apply filter_In. split; [apply indices_In, V|]. apply agree_spec. intros k _ Hk. rewrite zeroed_nth. cbn [Nat.add]. rewrite Hk. reflexivity.
Qed.
Lemma elem_at {A} (x : tensor A) v : twf x -> In v (tdata x) -> exists i, valid_idx (tshape x) i /\ get x i = Some v.
Proof.
  intros W Hv. pose proof (tab_get x W) as E. unfold tab in E. destruct (mapo (get x) (indices (tshape x))) as [l|] eqn:El; [|discriminate].
  assert (l = tdata x) as -> by (exact (f_equal (fun o => match o with Some t => tdata t | None => [] end) E)).
  destruct (mapo_In_rev _ _ _ _ El Hv) as (i & Hi & Ei). exists i. split; [apply indices_In; exact Hi|exact Ei].
Qed.
Lemma sum_ge zs z : (forall y, In y zs -> 0 <= y)%Z -> In z zs -> (z <= zsum zs)%Z.
Proof.
  induction zs as [|y zs IH]; intros P Hz; [destruct Hz|]. cbn. fold (zsum zs).
  assert (0 <= zsum zs)%Z.
  { clear -P. assert (Q : forall y, In y zs -> (0 <= y)%Z) by (intros q Hq; apply P; right; exact Hq). clear P. induction zs as [|q zs IH]; [cbn; lia|]. cbn. fold (zsum zs).
    pose proof (Q q (or_introl eq_refl)). pose proof (IH (fun a Ha => Q a (or_intror Ha))). lia. }
  pose proof (P y (or_introl eq_refl)). destruct Hz as [->|Hz]; [lia|]. pose proof (IH (fun a Ha => P a (or_intror Ha)) Hz). lia.
Qed.
Lemma mapo_in_both {A B} (f : A -> option B) l r a : mapo f l = Some r -> In a l -> exists b, f a = Some b /\ In b r.
Proof.
  revert r. induction l as [|c l IH]; intros r E Ha; [destruct Ha|]. cbn in E. destruct (f c) as [b|] eqn:Eb; [|discriminate]. destruct (mapo f l) as [r'|] eqn:Er; [|discriminate].
  injection E as <-. destruct Ha as [<-|Ha]; [exists b; split; [exact Eb|left; reflexivity]|]. destruct (IH r' eq_refl Ha) as (b' & E' & I). exists b'. split; [exact E'|right; exact I].
Qed.
Lemma fits_le d a b : (0 <= a)%Z -> zfits d b = true -> (a <= b)%Z -> zfits d a = true.
Proof. rewrite !fits_range. intros Ha (lo & hi & E & R) Le. exists lo, hi. split; [exact E|]. destruct (range_shape _ _ _ E). lia. Qed.
Lemma mapped d op fn0 (g : Z -> Z) (x z : tensor elt) axes keep : d <> BoolT -> (forall z, 0 <= g z)%Z ->
  (forall z, int_map d fn0 (EI z) = fitted d (g z)) -> (forall l, of_ints d op l = fitted d (zsum (map g l))) ->
  twf x -> Forall (in_dtype d) (tdata x) -> reduces (summary d op) axes keep x z ->
  exists x', b_map (elements d) fn0 x = Some x' /\ twf x' /\ tshape x' = tshape x /\
    foldable (elements d) MSum x' axes (summary d RSum) /\ reduces (summary d RSum) axes keep x' z.
Proof.
  intros N Hg Hf Ho W F R. set (h := reduced_axis (length (tshape x)) axes).
  assert (El : forall v, In v (tdata x) -> exists q, v = EI q /\ zfits d (g q) = true).
  { intros v Hv. destruct (elem_at x v W Hv) as (i & Vi & Ei). pose proof (zeroed_valid h _ _ 0 Vi) as Vj. pose proof (in_own_group h _ _ Vi) as Hi.
    destruct (group_got x W h (zeroed h 0 i)) as [l Egl].
    destruct (group_defined _ _ _ _ _ R _ l Egl Vj) as [o Hov]. destruct (summary_int _ _ _ _ N Hov) as (zs & En & Ov).
    destruct (mapo_in_both _ _ _ _ Egl Hi) as (b & Eb & Hb). assert (b = v) as -> by congruence.
    destruct (mapo_in_both _ _ _ _ En Hb) as (q & Eq & Hq). exists q. split; [destruct v; cbn in Eq; congruence|].
    rewrite Ho in Ov. unfold fitted in Ov. destruct (zfits d (zsum (map g zs))) eqn:Fs; [|discriminate].
    apply (fits_le d (g q) (zsum (map g zs))); [apply Hg|exact Fs|]. apply sum_ge; [|apply in_map; exact Hq]. intros y Hy. apply in_map_iff in Hy. destruct Hy as (p & <- & _). apply Hg. }
  assert (Md : exists data, mapo (int_map d fn0) (tdata x) = Some data).
  { apply mapo_Some. intros v Hv. destruct (El v Hv) as (q & -> & Fq). rewrite Hf. unfold fitted. rewrite Fq. eauto. }
  destruct Md as [data Md]. exists (mkT (tshape x) data). unfold b_map. cbn [map_of elements]. rewrite Md. split; [reflexivity|]. cbn [tshape].
  assert (Wx : twf (mkT (tshape x) data)) by (unfold twf in *; cbn [tdata tshape]; rewrite (mapo_length _ _ _ Md); exact W). split; [exact Wx|]. split; [reflexivity|].
  assert (Gx : forall i, get (mkT (tshape x) data) i = match get x i with Some v => int_map d fn0 v | None => None end).
  { intros i. unfold get. cbn [tdata tshape]. rewrite (mapo_nth _ _ _ _ Md). reflexivity. }
  assert (Gl : forall idxs l zs, mapo (get x) idxs = Some l -> mapo int_of l = Some zs -> (forall v, In v l -> In v (tdata x)) -> mapo (get (mkT (tshape x) data)) idxs = Some (map (fun q => EI (g q)) zs)).
  { intros idxs l zs E En Hin. rewrite (mapo_ext _ (fun i => match get x i with Some v => int_map d fn0 v | None => None end)) by (intros; apply Gx).
    rewrite (mapo_compose _ _ _ _ E). clear E. revert zs En. induction l as [|v l IH]; intros zs En; cbn in En; [injection En as <-; reflexivity|].
    destruct v as [q|b|b]; cbn in En; try discriminate. destruct (mapo int_of l) as [zs'|]; [|discriminate]. injection En as <-. cbn [mapo map].
    rewrite Hf. unfold fitted. destruct (El (EI q) (Hin _ (or_introl eq_refl))) as (q' & Eq & Fq). injection Eq as <-. rewrite Fq, (IH (fun v Hv => Hin v (or_intror Hv)) zs' eq_refl). reflexivity. }
  assert (Gr : forall j, valid_idx (kdims h 0 (tshape x)) j -> exists l zs, mapo (get x) (group h (tshape x) j) = Some l /\ mapo int_of l = Some zs /\
    mapo (get (mkT (tshape x) data)) (group h (tshape x) j) = Some (map (fun q => EI (g q)) zs) /\ zfits d (zsum (map g zs)) = true /\ summary d op l = Some (EI (zsum (map g zs)))).
  { intros j V. destruct (group_got x W h j) as [l Egl]. destruct (group_defined _ _ _ _ _ R _ l Egl V) as [o Hov].
    destruct (summary_int _ _ _ _ N Hov) as (zs & En & Ov). exists l, zs. split; [exact Egl|]. split; [exact En|]. split.
    - apply (Gl _ l zs Egl En). intros v Hv. destruct (mapo_In_rev _ _ _ _ Egl Hv) as (i & _ & Ei). exact (get_In _ _ _ Ei).
    - rewrite Hov. rewrite Ho in Ov. unfold fitted in Ov. destruct (zfits d (zsum (map g zs))); [|discriminate]. split; [reflexivity|congruence]. }
  assert (Nm : forall zs, mapo int_of (map (fun q => EI (g q)) zs) = Some (map g zs)).
  { intros zs. rewrite mapo_map. induction zs as [|q zs IH]; [reflexivity|]. cbn [mapo map]. rewrite IH. reflexivity. }
  assert (R' : reduces (summary d RSum) axes keep (mkT (tshape x) data) z).
  { destruct R as (k & Rk & Tk & Rz & D). exists k. cbn [tshape]. split; [exact Rk|]. split; [|split; assumption]. etransitivity; [|exact Tk]. apply tab_ext. intros j V.
    rewrite (kept_shape _ _ _ Rk) in V. fold h in V |- *. destruct (Gr j V) as (l & zs & E1 & E2 & E3 & Fs & E4). rewrite E1, E3, E4.
    rewrite (summary_eq d RSum _ _ N (Nm zs)). cbn [of_ints]. unfold fitted. rewrite Fs. reflexivity. }
  split; [|exact R'].
  apply (sum_foldable d _ z axes keep N); [|exact R'|].
  - cbn [tdata]. apply Forall_forall. intros v Hv. destruct (mapo_In_rev _ _ _ _ Md Hv) as (u & Hu & Eu). destruct (El u Hu) as (q & -> & Fq). rewrite Hf in Eu. unfold fitted in Eu. rewrite Fq in Eu.
    injection Eu as <-. apply fits_range in Fq. exact Fq.
  - cbn [tshape]. intros j l' zs' E' En' V. fold h in E', V. destruct (Gr j V) as (l & zs & E1 & E2 & E3 & Fs & _). rewrite E3 in E'. injection E' as <-. rewrite Nm in En'. injection En' as <-.
    rewrite map_map. rewrite (map_ext _ g); [exact Fs|]. intros q. apply Z.abs_eq, Hg.
Qed.

(** ** One node *)
Lemma summary_in_dtype d op l v : Forall (in_dtype d) l -> summary d op l = Some v -> in_dtype d v.
Proof.
  intros F H. destruct (dtype_beq d BoolT) eqn:Eb.
  - assert (d = BoolT) as -> by (destruct d; try discriminate; reflexivity). cbn in H. destruct (mapo bool_of l) as [bs|]; [|discriminate]. destruct op, bs; try discriminate; injection H as <-; reflexivity.
  - assert (N : d <> BoolT) by (intros ->; discriminate). destruct (summary_int _ _ _ _ N H) as (zs & En & Ov). destruct (ints_of d l F zs En) as [_ Ff].
    assert (Fit : forall q, fitted d q = Some v -> in_dtype d v).
    { intros q Hq. unfold fitted in Hq. destruct (zfits d q) eqn:Eq; [|discriminate]. injection Hq as <-. apply fits_range in Eq. exact Eq. }
    rewrite Forall_forall in Ff.
    destruct op; cbn [of_ints] in Ov; try (eapply Fit; exact Ov).
    + destruct (greatest zs) as [q|] eqn:Eg; [|discriminate]. injection Ov as <-. apply fits_range, Ff. apply (fold1_in Z.max) in Eg; [exact Eg|]. intros a b. lia.
    + destruct (least zs) as [q|] eqn:Eg; [|discriminate]. injection Ov as <-. apply fits_range, Ff. apply (fold1_in Z.min) in Eg; [exact Eg|]. intros a b. lia.
Qed.
Lemma reduces_in_dtype d op axes keep (x z : tensor elt) : Forall (in_dtype d) (tdata x) -> reduces (summary d op) axes keep x z -> Forall (in_dtype d) (tdata z).
Proof.
  intros F (k & _ & Tk & _ & ->). eapply tab_elems; [exact Tk|]. cbn beta. intros j v H. destruct (mapo _ _) as [l|] eqn:E; [|discriminate].
  eapply summary_in_dtype; [|exact H]. exact (got_in _ _ _ _ F E).
Qed.
Lemma prod_kdims_deleted h P : (forall k, h k = true <-> P k) -> forall i s out, deleted P i s out -> prodN out = prodN (kdims h i s).
Proof.
  intros H i s out D. induction D as [i|i d s out HP D IH|i d s out HP D IH]; [reflexivity| |]; cbn [kdims].
  - rewrite (proj2 (H i) HP), IH. symmetry. apply N.mul_1_l.
  - destruct (h i) eqn:E; [elim HP; apply H, E|]. cbn [prodN fold_right]. fold (prodN out). fold (prodN (kdims h (S i) s)). rewrite IH. reflexivity.
Qed.
Lemma reduces_wf {A} (combine : list A -> option A) axes keep (x z : tensor A) : reduces combine axes keep x z -> twf z.
Proof.
  intros (k & Rk & Tk & (Hv & Rz) & D). destruct (tab_wf _ _ _ Tk) as [Wk _]. unfold twf in *. rewrite D, Wk. f_equal. rewrite (kept_shape _ _ _ Rk). destruct keep.
  - rewrite (kept_shape axes (tshape x) (tshape z)) by (split; assumption). reflexivity.
  - symmetry. apply (prod_kdims_deleted _ (reduced (length (tshape x)) axes)); [apply reduced_axis_spec|exact Rz].
Qed.

Section Node.
  Variable value : arg -> option cval.
  Variable n : rnode.
  Variable e : renv.
  Notation given := (given value e).
  Notation known := (fun a => constant_of value a <> None).

  (** The constants of a node are what ONNX reads. *)
  Definition agrees (b : arg) (c : otensor) : Prop := forall k, constant_of value b = Some k -> c = k.
  Lemma axes_config a args t xs axes keep c : ninputs n = a :: args -> aty a = TensorT t -> Forall known args -> Forall2 agrees args xs ->
    axes_named n xs = Some axes -> int_attr n "keepdims" 1%Z = Some keep -> reduce_config value n = IOk c -> c = (sort_n (map (norm_axis (tt_rank t)) axes), Z.eqb keep 1).
  Proof.
    intros I Ta Kn G Ax Kp H. apply (reduce_config_ok value n a args t axes keep c I Ta); [|apply int_attr_or; exact Kp|exact H].
    unfold axes_named in Ax. unfold reduce_axes_given, as_attribute. rewrite I. destruct xs as [|y ys].
    - inversion G; subst. right. split; [reflexivity|]. destruct (get_attr n "axes") as [[]|]; try discriminate Ax; injection Ax as <-; auto.
    - left. destruct (get_attr n "axes") as [[]|]; try discriminate Ax; destruct y as [[] y]; try discriminate Ax. destruct ys; try discriminate Ax.
      inversion G as [|b ? rest' ? Gb Gr]; subst. inversion Kn as [|? ? Kb _]; subst. rename Gb into C1. unfold agrees, constant_of in *.
      destruct (value b) as [v|] eqn:Ev; [|elim Kb; reflexivity]. destruct (cv_ints v) as [l'|] eqn:Cv; [|elim Kb; reflexivity]. pose proof (C1 _ eq_refl) as Eq.
      injection Eq as E1 E2. exists b, v. split; [reflexivity|]. split; [exact Ev|]. split; [symmetry; exact E1|]. rewrite E2, as_ints_map in Ax. rewrite Cv. exact Ax.
  Qed.
  Lemma infer_type a args t d r xs axes keep ty : ninputs n = a :: args -> aty a = TensorT t -> tt_dtype t = d -> tt_rank t = N.of_nat r ->
    Forall known args -> Forall2 agrees args xs -> axes_named n xs = Some axes -> int_attr n "keepdims" 1%Z = Some keep -> (length axes <= r)%nat ->
    infer_reduce value n = IOk ty -> reduce_config value n = IOk (dims_of r axes, Z.eqb keep 1) /\ out_type d r axes (Z.eqb keep 1) ty.
  Proof.
    intros I Ta Hd Hr Kn G Ax Kp Hl T. unfold infer_reduce, first_input in T. rewrite I in T. cbn [ibind] in T. rewrite Ta in T.
    destruct (reduce_config value n) as [c| |] eqn:Ec; cbn [iexpect ibind] in T; try discriminate T.
    pose proof (axes_config a args t xs axes keep c I Ta Kn G Ax Kp Ec) as ->. rewrite Hr in *. fold (dims_of r axes) in *. split; [reflexivity|].
    assert (Ld : length (dims_of r axes) = length axes) by (unfold dims_of; rewrite (Permutation_length (sort_n_perm _)), map_length; reflexivity).
    unfold out_type. cbn [ibind] in T. rewrite Ld in T. replace (N.of_nat (length axes) =? N.of_nat r) with (Nat.eqb (length axes) r) in T by lia.
    destruct (negb (keep =? 1)%Z && (Nat.eqb (length axes) 0 || Nat.eqb (length axes) r)); [injection T as <-; rewrite Hd; reflexivity|].
    destruct (match tt_shape t with Some _ => _ | None => _ end) as [sh| |] in T; cbn [ibind] in T; try discriminate T. injection T as <-. exists sh. rewrite Hd. do 2 f_equal.
    destruct (keep =? 1)%Z; [reflexivity|]. unfold usub. destruct (N.leb_spec (N.of_nat (length axes)) (N.of_nat r)); lia.
  Qed.

  Definition reduce_ok (d : dtype) (outs : list otensor) : Prop :=
    exists r vs, gen_reduce value n = Some r /\ exec_reduce d e r = Some vs /\ all_stand (noutputs n) vs outs.
  Lemma reduce_node d x rest outs : Forall2 given (ninputs n) ((d, x) :: rest) -> covered_reduce known n ((d, x) :: rest) -> onnx_reduce_node n ((d, x) :: rest) outs ->
    (exists o, noutputs n = [o] /\ infer_reduce value n = IOk (aty o)) -> reduce_ok d outs.
  Proof.
    intros G C O (o & Ho & T). inversion C as [op a args d' x' rest' axes keep Hop I Ht Kn Ax Kp Hnoop Hdrop Hbool Hext Hfit E1]; subst; clear C.
    rewrite I in G. inversion G as [|? ? ? ? Ga Gr0]; subst. clear G.
    assert (Gr : Forall2 agrees args rest) by (clear -Gr0; induction Gr0 as [|b c bs cs Hb _ IH]; constructor; [intros k Hk; exact (proj1 Hb k Hk)|exact IH]).
    assert (exists z, reduces (summary d op) axes (keep =? 1)%Z x z /\ (keep = 0 \/ keep = 1)%Z /\ outs = [(d, z)]) as (z & R & Kb & ->).
    { inversion O as [op2 ? ? ? axes2 keep2 z Hop2 Ax2 Kp2 Kv _ R E|op2 ? ? ? Hop2 Hs Ax2 Hn E]; subst.
      - assert (op2 = op) as -> by congruence. assert (axes2 = axes) as -> by congruence. assert (keep2 = keep) as -> by congruence. eauto.
      - assert (axes = []) as -> by congruence. destruct Hnoop as [Q|Q]; [elim Q; reflexivity|]. rewrite Hn in Q. discriminate Q. }
    destruct (tensor_in value e _ _ _ _ Ht Ga) as (t & Ta & _ & Et & Hd & Hr & _ & W & F & H0 & Hm). unfold i64_max in Hm.
    set (r := length (tshape x)) in *.
    assert (H0' : (0 < r)%nat) by lia. assert (Hr63 : N.of_nat r < r63) by (unfold r63; lia).
    assert (Hl : (length axes <= r)%nat).
    { destruct axes as [|a0 l]; [cbn; lia|]. eapply (axes_len x z (a0 :: l)); try eassumption; discriminate. }
    destruct (infer_type a args t d r rest axes keep (aty o) I Ta Hd Hr Kn Gr Ax Kp Hl T) as [Ec Hty].
    pose proof (reduces_wf _ _ _ _ _ R) as Wz. pose proof (reduces_in_dtype _ _ _ _ _ _ F R) as Fz.
    assert (He : tensors e (aname a) = Some x) by (exact Et).
    assert (Fin : forall ex tt, gen_reduce value n = Some ex -> reval (elements d) (tensors e) ex = Some tt -> held_as (aty o) tt z -> reduce_ok d [(d, z)]).
    { intros ex tt Hg Hv Hh. exists ex, [RTensor tt]. split; [exact Hg|]. split; [unfold exec_reduce; rewrite Hv; reflexivity|]. rewrite Ho. cbn [all_stand fst snd]. split; [|exact Logic.I].
      split; [exact Wz|]. split; [exact Fz|]. unfold out_type in Hty. destruct (negb _ && _) eqn:Ez in Hty.
      - rewrite Hty in *. cbn in Hh. destruct Hh as [Sz ->]. auto.
      - destruct Hty as [sh Hty]. rewrite Hty in *. cbn in Hh |- *. destruct Hh as [-> Hh]. split; [reflexivity|]. split; [reflexivity|]. split; [exact Hh|].
        destruct (keep =? 1)%Z; [lia|]. cbn [negb andb] in Ez. destruct (Nat.eqb_spec (length axes) r); [rewrite orb_true_r in Ez; discriminate|]. lia. }
    destruct (dtype_beq d BoolT) eqn:Eb.
    - assert (d = BoolT) as Ed by (destruct d; try discriminate; reflexivity). rewrite Ed in *. clear Ed Eb.
      assert (exists mm, foldable (elements BoolT) mm x axes (summary BoolT op) /\
        forall rk, out_rank_of (aty o) = Some rk -> (forall q, aty o <> ScalarNative q) -> gen_reduce value n = Some (bool_reduce mm (aname a) (dims_of r axes) (keep =? 1)%Z (aty o) rk)) as (mm & Fd & Hgen).
      { destruct (Hbool eq_refl) as [-> | ->].
        - exists MAny. split.
          + apply (bool_ext_foldable RMax MAny orb false x z axes (keep =? 1)%Z); try assumption; try reflexivity; [exact orb_assoc|exact orb_comm|intros [] []; auto|exact any_fold1|apply Hext; auto].
          + intros rk Hrk Hnn. assert (K : ntype n = "ReduceMax"%string).
            { unfold rop_of in Hop. repeat match type of Hop with (if String.eqb ?p ?q then _ else _) = _ => destruct (String.eqb_spec p q) as [Q|]; [first [exact Q|discriminate Hop]|] end. discriminate Hop. }
            unfold gen_reduce. rewrite K. cbn [reduction_of String.eqb Ascii.eqb Bool.eqb]. rewrite I, Ho, Ec, Ta, Hrk, Hd. destruct (aty o); try reflexivity. elim (Hnn d0). reflexivity.
        - exists MAll. split.
          + apply (bool_ext_foldable RMin MAll andb true x z axes (keep =? 1)%Z); try assumption; try reflexivity; [exact andb_assoc|exact andb_comm|intros [] []; auto|exact all_fold1|apply Hext; auto].
          + intros rk Hrk Hnn. assert (K : ntype n = "ReduceMin"%string).
            { unfold rop_of in Hop. repeat match type of Hop with (if String.eqb ?p ?q then _ else _) = _ => destruct (String.eqb_spec p q) as [Q|]; [first [exact Q|discriminate Hop]|] end. discriminate Hop. }
            unfold gen_reduce. rewrite K. cbn [reduction_of String.eqb Ascii.eqb Bool.eqb]. rewrite I, Ho, Ec, Ta, Hrk, Hd. destruct (aty o); try reflexivity. elim (Hnn d0). reflexivity. }
      destruct (boolean (elements BoolT) mm x z axes (summary BoolT op) (tensors e) (XVar (aname a)) (keep =? 1)%Z BoolT (aty o) Fd W Hr63 H0' He R Hty (aname a) eq_refl) as (rk & tt & Hrk & Hv & Hh).
      apply (Fin _ tt (Hgen rk Hrk ltac:(intros q Q; rewrite Q in Hh; destruct Hh)) Hv Hh).
    - assert (N : d <> BoolT) by (intros ->; discriminate).
      assert (Hc : (keep =? 1)%Z = true \/ (length axes < r)%nat) by (destruct Hdrop as [Q|[Q|Q]]; [contradiction|left; lia|right; exact Q]).
      assert (Main : forall mm base x' op', reval (elements d) (tensors e) base = Some x' -> twf x' -> tshape x' = tshape x -> foldable (elements d) mm x' axes (summary d op') ->
        reduces (summary d op') axes (keep =? 1)%Z x' z ->
        (forall tr, reduction_of (ntype n) = Some tr -> forall rk, raw_reduce tr (aname a) (dims_of r axes) (keep =? 1)%Z rk = Some (forward_reduce mm base (dims_of r axes) (keep =? 1)%Z rk)) ->
        reduce_ok d [(d, z)]).
      { intros mm base x' op' Hb Wx Sx Fd R' Hraw. assert (Er : length (tshape x') = r) by (rewrite Sx; reflexivity).
        destruct (numeric (elements d) mm x' z axes (summary d op') (tensors e) base (keep =? 1)%Z d (aty o) Fd Wx ltac:(rewrite Er; exact Hr63) ltac:(rewrite Er; exact H0') Hb R' ltac:(rewrite Er; exact Hty) ltac:(rewrite Er; exact Hc)) as (rk & tt & Hrk & Hv & Hh).
        rewrite Er in Hv. apply (Fin _ tt) with (2 := Hv); [|exact Hh].
        assert (exists tr, reduction_of (ntype n) = Some tr) as [tr Etr].
        { clear -Hop. unfold rop_of in Hop. repeat match type of Hop with (if String.eqb ?p ?q then _ else _) = _ => destruct (String.eqb_spec p q) as [Q|]; [rewrite Q; eexists; reflexivity|] end. discriminate Hop. }
        unfold gen_reduce. rewrite Etr, I, Ho, Ec, Ta, Hrk, Hd. specialize (Hraw tr Etr rk).
        assert (B : match aty o with
                    | TensorT _ => raw_reduce tr (aname a) (dims_of r axes) (keep =? 1)%Z rk
                    | ScalarTensor _ => option_map XOne (raw_reduce tr (aname a) (dims_of r axes) (keep =? 1)%Z rk)
                    | _ => None end = Some (wrap (aty o) (forward_reduce mm base (dims_of r axes) (keep =? 1)%Z rk))).
        { rewrite Hraw. destruct (aty o); cbn in Hh; try contradiction; reflexivity. }
        destruct d; try exact B; contradiction. }
      assert (Kn' : forall s q, rop_of (ntype n) = Some q -> In (s, q) [("ReduceSum", RSum); ("ReduceProd", RProd); ("ReduceMax", RMax); ("ReduceMin", RMin); ("ReduceSumSquare", RSumSquare); ("ReduceL1", RL1)]%string -> ntype n = s).
      { intros s q Hq Hin. clear -Hq Hin. unfold rop_of in Hq.
        repeat match type of Hq with (if String.eqb ?p ?q then _ else _) = _ => destruct (String.eqb_spec p q) as [Q|]; [injection Hq as <-; rewrite Q; cbn in Hin; repeat (destruct Hin as [Hin|Hin]; [congruence|]); destruct Hin|] end. discriminate Hq. }
      destruct op.
      + apply (Main MSum (XVar (aname a)) x RSum He W eq_refl); [|exact R|].
        * apply (sum_foldable d x z axes (keep =? 1)%Z N F R). intros j l zs El En _. exact (Hfit j l zs El En).
        * intros tr Etr rk. rewrite (Kn' "ReduceSum"%string _ Hop ltac:(cbn; tauto)) in Etr. injection Etr as <-. reflexivity.
      + apply (Main MProd (XVar (aname a)) x RProd He W eq_refl); [|exact R|].
        * apply (prod_foldable d x z axes (keep =? 1)%Z N F R). intros j l zs El En. exact (Hfit j l zs El En).
        * intros tr Etr rk. rewrite (Kn' "ReduceProd"%string _ Hop ltac:(cbn; tauto)) in Etr. injection Etr as <-. reflexivity.
      + apply (Main MMax (XVar (aname a)) x RMax He W eq_refl); [|exact R|].
        * apply (int_ext_foldable d RMax MMax Z.max x z axes (keep =? 1)%Z); try assumption; try reflexivity; try (intros; lia). apply Hext. auto.
        * intros tr Etr rk. rewrite (Kn' "ReduceMax"%string _ Hop ltac:(cbn; tauto)) in Etr. injection Etr as <-. reflexivity.
      + apply (Main MMin (XVar (aname a)) x RMin He W eq_refl); [|exact R|].
        * apply (int_ext_foldable d RMin MMin Z.min x z axes (keep =? 1)%Z); try assumption; try reflexivity; try (intros; lia). apply Hext. auto.
        * intros tr Etr rk. rewrite (Kn' "ReduceMin"%string _ Hop ltac:(cbn; tauto)) in Etr. injection Etr as <-. reflexivity.
      + destruct (mapped d RSumSquare FSquare (fun z => z * z)%Z x z axes (keep =? 1)%Z N ltac:(intros; nia) ltac:(reflexivity) ltac:(reflexivity) W F R) as (x' & Hb & Wx & Sx & Fd & R').
        apply (Main MSum (XFn FSquare (XVar (aname a))) x' RSum); try assumption; [cbn [reval]; rewrite He; exact Hb|].
        intros tr Etr rk. rewrite (Kn' "ReduceSumSquare"%string _ Hop ltac:(cbn; tauto)) in Etr. injection Etr as <-. reflexivity.
      + destruct (mapped d RL1 FAbs Z.abs x z axes (keep =? 1)%Z N ltac:(intros; lia) ltac:(reflexivity) ltac:(reflexivity) W F R) as (x' & Hb & Wx & Sx & Fd & R').
        apply (Main MSum (XFn FAbs (XVar (aname a))) x' RSum); try assumption; [cbn [reval]; rewrite He; exact Hb|].
        intros tr Etr rk. rewrite (Kn' "ReduceL1"%string _ Hop ltac:(cbn; tauto)) in Etr. injection Etr as <-. reflexivity.
  Qed.
End Node.
