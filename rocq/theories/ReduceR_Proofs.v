(** Lemmas about the code emitted for a reduction, on real numbers. *)
From Coq Require Import Lia ZifyBool ZifyNat ZifyN Permutation Reals Lra.
From Verif Require Import Tensor_Proofs Fold_Proofs BinOps_Proofs ShapeOps_Proofs AxisOps_Proofs RankOps_Proofs ShapeRun_Proofs Index_Proofs TensorRun_Proofs TensorRun_Nodes.
From Verif Require Import Reduce_Spec Reduce_Model Reduce_Proofs Reduce_Elems Reduce_Core Reduce_Nodes ReduceR_Spec ReduceR_Model.
Import Tensor_Spec BinOps_Spec RankOps_Spec ShapeRun_Spec TensorRun_Spec.
Local Open Scope N_scope.

(** ** The folds *)
Lemma map_as {A B} (f : A -> B) : forall l vs, mapo (fun a => Some (f a)) l = Some vs -> vs = map f l.
Proof.
  induction l as [|a l IH]; intros vs E; cbn in E; [injection E as <-; reflexivity|]. destruct (mapo _ l) as [r|]; [|discriminate]. injection E as <-. rewrite (IH r eq_refl). reflexivity.
Qed.
Section RMonoid.
  Variables (m : meth) (f : real -> real -> real) (u : real) (op : rrop).
  Hypothesis As : forall a b c, f a (f b c) = f (f a b) c.
  Hypothesis Co : forall a b, f a b = f b a.
  Hypothesis Un : forall a, f a u = a.
  Hypothesis Code : forall l, real_fold m l = Some (fold_left f l u).
  Hypothesis Op : forall l, of_reals op l = Some (fold_right f u l).
  Lemma rfold_app l l' : fold_right f u (l ++ l') = f (fold_right f u l) (fold_right f u l').
  Proof. induction l as [|a l IH]; cbn; [rewrite Co; symmetry; apply Un|]. rewrite IH. apply As. Qed.
  Lemma rfold_perm l l' : Permutation l l' -> fold_right f u l = fold_right f u l'.
  Proof. induction 1 as [|a l l' H IH|a b l|l l' l'' H1 IH1 H2 IH2]; cbn; [reflexivity|rewrite IH; reflexivity| |congruence]. rewrite !As, (Co b a). reflexivity. Qed.
  Lemma rfold_concat ls : fold_right f u (map (fold_right f u) ls) = fold_right f u (concat ls).
  Proof. induction ls as [|l ls IH]; cbn; [reflexivity|]. rewrite IH, rfold_app. reflexivity. Qed.
  Lemma rmonoid_foldable x axes : foldable reals m x axes (of_reals op).
  Proof.
    exists (fun l => Some (fold_right f u l)), (fun _ => True), false. split; [|split; [|split; [|split; [|split; [discriminate|]]]]].
    - intros l _. split; [|discriminate]. cbn [fold_of reals]. rewrite Code, (fold_left_right f As Co). reflexivity.
    - intros l l' P _. split; [exact I|]. rewrite (rfold_perm _ _ P). reflexivity.
    - intros ls _ _. split; [apply Forall_forall; trivial|]. intros vs E. split; [exact I|]. rewrite (map_as _ _ _ E), rfold_concat. reflexivity.
    - intros v _. cbn. rewrite Un. reflexivity.
    - intros j l _ _. split; [exact I|]. symmetry. apply Op.
  Qed.
End RMonoid.
Lemma rsum_foldable x axes : foldable reals MSum x axes (of_reals QSum).
Proof. apply (rmonoid_foldable MSum Rplus 0%R); try reflexivity; intros; ring. Qed.
Lemma rprod_foldable x axes : foldable reals MProd x axes (of_reals QProd).
Proof. apply (rmonoid_foldable MProd Rmult 1%R); try reflexivity; intros; ring. Qed.
Lemma rgroup_some {A} (x : tensor A) h j l : prodN (tshape x) <> 0 -> valid_idx (kdims h 0 (tshape x)) j -> mapo (get x) (group h (tshape x) j) = Some l -> l <> [].
Proof. intros P V E C. pose proof (group_some _ _ _ P V) as G. apply mapo_length in E. rewrite C in E. destruct (group h (tshape x) j); [contradiction|discriminate]. Qed.
Lemma rext_foldable m op (f : real -> real -> real) x axes : (forall a b c, f a (f b c) = f (f a b) c) -> (forall a b, f a b = f b a) ->
  (forall v r, real_fold m (v :: r) = Some (fold_left f r v)) -> (forall l, of_reals op l = fold1 f l) -> prodN (tshape x) <> 0 ->
  foldable reals m x axes (of_reals op).
Proof.
  intros As Co Code Op P. exists (fold1 f), (fun l => l <> []), true. split; [|split; [|split; [|split; [|split; [auto|]]]]].
  - intros [|v l] N; [contradiction|]. split; [|discriminate]. cbn [fold_of reals]. rewrite Code. cbn [fold1]. rewrite (fold_left_right f As Co). reflexivity.
  - intros l l' Q N. split; [intros ->; apply Permutation_sym, Permutation_nil in Q; contradiction|]. apply fold1_perm; assumption.
  - intros ls Ev N. destruct (Ev eq_refl) as [Nf _]. split; [exact Nf|]. intros vs E. split; [|apply fold1_concat; assumption].
    intros ->. destruct ls as [|l ls]; [apply N; reflexivity|]. apply mapo_length in E. discriminate.
  - intros v _. reflexivity.
  - intros j l E V. split; [exact (rgroup_some x _ j l P V E)|symmetry; apply Op].
Qed.
Lemma rmax_foldable x axes : prodN (tshape x) <> 0 -> foldable reals MMax x axes (of_reals QMax).
Proof. apply (rext_foldable MMax QMax Rmax); try reflexivity; [apply Rmax_assoc|apply Rmax_comm]. Qed.
Lemma rmin_foldable x axes : prodN (tshape x) <> 0 -> foldable reals MMin x axes (of_reals QMin).
Proof. apply (rext_foldable MMin QMin Rmin); try reflexivity; [apply Rmin_assoc|apply Rmin_comm]. Qed.
Lemma mapo_pred {A B} (f : A -> option B) (g : A -> B) : forall l vs, (forall a b, In a l -> f a = Some b -> b = g a) -> mapo f l = Some vs -> vs = map g l.
Proof.
  induction l as [|a l IH]; intros vs H E; cbn in E; [injection E as <-; reflexivity|]. destruct (f a) as [b|] eqn:Eb; [|discriminate]. destruct (mapo f l) as [r|]; [|discriminate].
  injection E as <-. cbn. f_equal; [exact (H a b (or_introl eq_refl) Eb)|]. apply IH; [|reflexivity]. intros c d Hc. apply H. right. exact Hc.
Qed.
Lemma mean_even ls c : c <> 0%nat -> Forall (fun p => length p = c) ls -> rsum (map (fun p => rsum p / INR c)%R ls) = (rsum (concat ls) / INR c)%R /\ length (concat ls) = (length ls * c)%nat.
Proof.
  intros C F. assert (INR c <> 0)%R by (apply not_0_INR; exact C). induction F as [|p ls Hp F IH]; [split; [cbn; field; assumption|reflexivity]|].
  cbn [map concat length]. destruct IH as [E L]. split; [|rewrite app_length, L, Hp; reflexivity].
  assert (A : rsum (p ++ concat ls) = (rsum p + rsum (concat ls))%R) by (apply (rfold_app Rplus 0%R); intros; ring). rewrite A.
  change (rsum p / INR c + rsum (map (fun p => rsum p / INR c) ls) = (rsum p + rsum (concat ls)) / INR c)%R. rewrite E. field. assumption.
Qed.
Lemma rmean_foldable x axes : prodN (tshape x) <> 0 -> foldable reals MMean x axes (of_reals QMean).
Proof.
  intros P. exists (of_reals QMean), (fun l => l <> []), true. split; [|split; [|split; [|split; [|split; [auto|]]]]].
  - intros [|v l] N; [contradiction|]. split; [|discriminate]. cbn [fold_of reals real_fold of_reals]. rewrite (fold_left_right Rplus) by (intros; ring). reflexivity.
  - intros l l' Q N. assert (N' : l' <> []) by (intros ->; apply Permutation_sym, Permutation_nil in Q; contradiction). split; [exact N'|].
    cbn [of_reals]. rewrite (Permutation_length Q). unfold rsum. rewrite (rfold_perm Rplus 0%R) with (1 := fun a b c => eq_sym (Rplus_assoc a b c)) (2 := Rplus_comm) (3 := Q). destruct l, l'; try contradiction; reflexivity.
  - intros ls Ev N. destruct (Ev eq_refl) as [Nf [c Hc]]. split; [exact Nf|]. intros vs E.
    assert (Nls : ls <> []) by (intros ->; apply N; reflexivity).
    assert (C0 : c <> 0%nat). { destruct ls as [|l ls]; [contradiction|]. inversion Nf; inversion Hc; subst. destruct l; [contradiction|discriminate]. }
    assert (Ev' : vs = map (fun p => rsum p / INR c)%R ls).
    { apply (mapo_pred _ _ _ _) with (2 := E). intros p b Hp Eb. rewrite Forall_forall in Hc, Nf. rewrite <- (Hc p Hp). specialize (Nf p Hp). destruct p; [contradiction|]. injection Eb as <-. reflexivity. }
    assert (Nv : vs <> []) by (rewrite Ev'; destruct ls; [contradiction|discriminate]). split; [exact Nv|].
    destruct (mean_even ls c C0 Hc) as [M L]. cbn [of_reals].
    assert (Lv : length vs = length ls) by (rewrite Ev', map_length; reflexivity).
    assert (Ms : rsum vs = (rsum (concat ls) / INR c)%R) by (rewrite Ev'; exact M). rewrite Lv, L, mult_INR, Ms. assert (INR c <> 0)%R by (apply not_0_INR; exact C0). assert (INR (length ls) <> 0)%R by (apply not_0_INR; destruct ls; [contradiction|discriminate]).
    destruct vs; [contradiction|]. destruct (concat ls) eqn:Ec; [contradiction|]. rewrite <- Ec. f_equal. field. split; assumption.
  - intros v _. cbn. f_equal. field.
  - intros j l E V. split; [exact (rgroup_some x _ j l P V E)|reflexivity].
Qed.

(** ** A function before or after a reduction *)
Lemma mapo_two {A B C} (a : A -> option B) (g : B -> option C) : forall l d, mapo (fun j => obind (a j) g) l = Some d -> exists d0, mapo a l = Some d0 /\ mapo g d0 = Some d.
Proof.
  induction l as [|j l IH]; intros d E; cbn in E; [injection E as <-; exists []; auto|]. destruct (a j) as [b|] eqn:Ea; [|discriminate]. cbn in E. destruct (g b) as [c|] eqn:Eg; [|discriminate].
  destruct (mapo _ l) as [r|]; [|discriminate]. injection E as <-. destruct (IH r eq_refl) as (d0 & E0 & E1). exists (b :: d0). cbn. rewrite Ea, E0, Eg, E1. auto.
Qed.
Lemma reduces_after {A} (c1 : list A -> option A) (g : A -> option A) axes keep (x z : tensor A) : reduces (fun l => obind (c1 l) g) axes keep x z ->
  exists z0, reduces c1 axes keep x z0 /\ tshape z0 = tshape z /\ mapo g (tdata z0) = Some (tdata z).
Proof.
  intros (k & Rk & Tk & Rz & D). unfold tab in Tk. destruct (mapo _ (indices (tshape k))) as [d|] eqn:Em; [|discriminate]. injection Tk as Tk.
  erewrite mapo_ext in Em; [apply (mapo_two (fun j => match mapo (get x) (group (reduced_axis (length (tshape x)) axes) (tshape x) j) with Some l => c1 l | None => None end) g) in Em|].
  - destruct Em as (d0 & E0 & E1). exists (mkT (tshape z) d0). cbn [tshape tdata]. split; [|split; [reflexivity|]].
    + exists (mkT (tshape k) d0). cbn [tshape tdata]. split; [exact Rk|]. split; [|split; [exact Rz|reflexivity]]. unfold tab. rewrite E0. reflexivity.
    + rewrite E1, D, <- Tk. reflexivity.
  - intros j _. cbn beta. destruct (mapo _ (group _ _ _)); reflexivity.
Qed.
Definition mapped_by {A} (g : A -> A) (x : tensor A) : tensor A := mkT (tshape x) (map g (tdata x)).
Lemma get_mapped {A} (g : A -> A) (x : tensor A) i : get (mapped_by g x) i = option_map g (get x i).
Proof. unfold get, mapped_by. cbn [tshape tdata]. rewrite nth_error_map. reflexivity. Qed.
Lemma mapo_option_map {A B} (f : A -> option B) (g : B -> B) : forall l, mapo (fun a => option_map g (f a)) l = option_map (map g) (mapo f l).
Proof. induction l as [|a l IH]; [reflexivity|]. cbn. rewrite IH. destruct (f a); [|reflexivity]. destruct (mapo f l); reflexivity. Qed.
Lemma reduces_before {A} (c1 : list A -> option A) (g : A -> A) axes keep (x z : tensor A) : reduces (fun l => c1 (map g l)) axes keep x z -> reduces c1 axes keep (mapped_by g x) z.
Proof.
  intros (k & Rk & Tk & Rz & D). exists k. cbn [mapped_by tshape]. split; [exact Rk|]. split; [|auto]. etransitivity; [|exact Tk]. apply tab_ext. intros j _.
  rewrite (mapo_ext _ (fun i => option_map g (get x i))) by (intros; apply get_mapped). rewrite mapo_option_map. destruct (mapo (get x) _); reflexivity.
Qed.
Lemma reduces_ext {A} (c c' : list A -> option A) axes keep (x z : tensor A) : (forall l, c l = c' l) -> reduces c axes keep x z -> reduces c' axes keep x z.
Proof.
  intros H (k & Rk & Tk & Rz & D). exists k. split; [exact Rk|]. split; [|auto]. etransitivity; [|exact Tk]. apply tab_ext. intros j _. destruct (mapo _ _); [symmetry; apply H|reflexivity].
Qed.
Lemma mapped_wf {A} (g : A -> A) (x : tensor A) : twf x -> twf (mapped_by g x).
Proof. unfold twf. cbn. rewrite map_length. auto. Qed.
Lemma b_map_total f g (x : tensor real) : (forall v, real_map f v = Some (g v)) -> b_map reals f x = Some (mapped_by g x).
Proof.
  intros H. unfold b_map. cbn [map_of reals]. replace (mapo (real_map f) (tdata x)) with (Some (map g (tdata x))); [reflexivity|]. symmetry.
  induction (tdata x) as [|v l IH]; [reflexivity|]. cbn [mapo map]. rewrite H, IH. reflexivity.
Qed.

(** ** The chain, and what is put around it *)
Section ROut.
  Variables (m : meth) (x z : tensor real) (axes : list Z) (op : rrop).
  Variables (env : string -> option (tensor real)) (e : rexp) (keep : bool) (d : dtype) (ty : argty).
  Let r := length (tshape x).
  Hypothesis F : foldable reals m x axes (of_reals op).
  Hypothesis W : twf x.
  Hypothesis Hr : N.of_nat r < r63.
  Hypothesis H0 : (0 < r)%nat.
  Hypothesis He : reval reals env e = Some x.
  Hypothesis Hz : reduces (of_reals op) axes keep x z.
  Hypothesis Ht : out_type d r axes keep ty.
  Hypothesis Hc : keep = true \/ (length axes < r)%nat.
  Lemma chain_held : exists rk t, out_rank_of ty = Some rk /\ reval reals env (forward_reduce m e (dims_of r axes) keep rk) = Some t /\ held_as ty t z.
  Proof.
    destruct (numeric reals m x z axes (of_reals op) env e keep d ty F W Hr H0 He Hz Ht Hc) as (rk & t & E1 & E2 & E3). fold r in E2.
    unfold out_type in Ht. destruct (negb keep && (Nat.eqb (length axes) 0 || Nat.eqb (length axes) r)) eqn:Q.
    - exists rk, t. split; [exact E1|]. rewrite Ht in E2, E3, E1. injection E1 as <-.
      assert (K : keep = false) by (destruct keep; [discriminate Q|reflexivity]). assert (Ha : axes = []).
      { rewrite K in Q. cbn in Q. destruct Hc as [C|C]; [congruence|]. destruct axes as [|a l]; [reflexivity|]. destruct (Nat.eqb_spec (length (a :: l)) r); [lia|]. discriminate Q. }
      destruct F as (T & ok & ne & H1 & H2 & H3 & H4 & Hne & G).
      destruct (core_all_scalar reals m T ok H1 x W axes (of_reals op) G env e He keep z Hz Ha K) as (Sz & v & Dz & E). fold r in E.
      cbn [wrap reval] in E2. rewrite E in E2. cbn [obind] in E2. rewrite reshape_one in E2. injection E2 as <-. split; [exact E|]. rewrite Ht. exact E3.
    - destruct Ht as [s Ht']. rewrite Ht' in *. exists rk, t. auto.
  Qed.
End ROut.
Lemma wrap_held env ty e (t z : tensor real) : reval reals env e = Some t -> held_as ty t z -> twf z -> reval reals env (wrap ty e) = Some t.
Proof.
  intros E H Wz. destruct ty; cbn [wrap]; try exact E. cbn [held_as] in H. destruct H as [Sz ->]. cbn [reval]. rewrite E. cbn [obind].
  unfold twf in Wz. rewrite Sz in Wz. destruct (tdata z) as [|v [|]]; try discriminate Wz. reflexivity.
Qed.
Lemma held_after ty g f (t z0 z : tensor real) : (forall v, real_map f v = g v) -> held_as ty t z0 -> tshape z0 = tshape z -> mapo g (tdata z0) = Some (tdata z) ->
  exists t', b_map reals f t = Some t' /\ held_as ty t' z.
Proof.
  intros Hf H S M. assert (M' : mapo (real_map f) (tdata z0) = Some (tdata z)) by (rewrite (mapo_ext _ g) by (intros; apply Hf); exact M).
  unfold b_map. cbn [map_of reals]. destruct ty; cbn [held_as] in *; try contradiction; destruct H as [H1 H2].
  - subst t. cbn [tdata tshape]. rewrite M'. eexists. split; [reflexivity|]. split; [congruence|reflexivity].
  - subst t. rewrite M'. eexists. split; [reflexivity|]. split; [|congruence]. rewrite S. destruct z; reflexivity.
Qed.
