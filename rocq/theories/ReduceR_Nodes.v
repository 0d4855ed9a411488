(** The code emitted for a reduction of real numbers: ReduceLogSumExp, and all
    ten together. *)
From Coq Require Import Lia ZifyBool ZifyNat ZifyN Permutation Reals Lra.
From Verif Require Import Tensor_Proofs Fold_Proofs BinOps_Proofs ShapeOps_Proofs AxisOps_Proofs RankOps_Proofs ShapeRun_Proofs Index_Proofs TensorRun_Proofs TensorRun_Nodes.
From Verif Require Import Reduce_Spec Reduce_Model Reduce_Proofs Reduce_Elems Reduce_Core Reduce_Nodes ReduceR_Spec ReduceR_Model ReduceR_Proofs.
Import Tensor_Spec BinOps_Spec RankOps_Spec ShapeRun_Spec TensorRun_Spec.
Local Open Scope N_scope.

(** ** Tensors given by their elements *)
Lemma b_map_tab f s g (x : tensor real) : tab s g = Some x -> b_map reals f x = tab s (fun i => obind (g i) (real_map f)).
Proof.
  intros E. pose proof (tab_wf _ _ _ E) as [_ S]. unfold b_map, tab in *. rewrite S. destruct (mapo g (indices s)) as [l|] eqn:El; [|discriminate]. injection E as <-. cbn [tdata map_of reals].
  f_equal. symmetry. clear S. revert l El. induction (indices s) as [|i is IH]; intros l El; cbn [mapo] in *; [injection El as <-; reflexivity|].
  destruct (g i); [|discriminate]. destruct (mapo g is); [|discriminate]. injection El as <-. cbn [obind mapo]. rewrite (IH _ eq_refl). reflexivity.
Qed.
Lemma b_two_tab (f : real -> real -> option real) s g h (x y : tensor real) : tab s g = Some x -> tab s h = Some y ->
  b_two f x y = tab s (fun i => obind (g i) (fun a => obind (h i) (f a))).
Proof.
  intros Ex Ey. pose proof (tab_wf _ _ _ Ex) as [_ Sx]. pose proof (tab_wf _ _ _ Ey) as [_ Sy]. unfold b_two. rewrite Sx, Sy, all2_refl. unfold tab in *.
  destruct (mapo g (indices s)) as [l|] eqn:El; [|discriminate]. destruct (mapo h (indices s)) as [l'|] eqn:El'; [|discriminate]. injection Ex as <-. injection Ey as <-. cbn [tdata]. f_equal. symmetry. clear Sx Sy.
  revert l l' El El'. induction (indices s) as [|i is IH]; intros l l' El El'; cbn [mapo] in *; [injection El as <-; injection El' as <-; reflexivity|].
  destruct (g i); [|discriminate]. destruct (mapo g is); [|discriminate]. destruct (h i); [|discriminate]. destruct (mapo h is); [|discriminate]. injection El as <-. injection El' as <-. cbn [obind mapo combine fst snd].
  rewrite (IH _ _ eq_refl eq_refl). reflexivity.
Qed.

(** ** Back to the shape of the input *)
Lemma expand_dims h : forall s i, mapo (fun dv => expand_dim (fst dv) (snd dv)) (combine (kdims h i s) (map Z.of_N s)) = Some s.
Proof.
  induction s as [|d s IH]; intros i; [reflexivity|]. cbn [kdims map combine mapo fst snd]. rewrite IH. unfold expand_dim.
  destruct (Z.eqb_spec (Z.of_N d) (-1)); [lia|]. destruct (Z.ltb_spec (Z.of_N d) 0); [lia|]. rewrite N2Z.id. destruct (h i); [rewrite N.eqb_refl, orb_true_r|rewrite N.eqb_refl]; reflexivity.
Qed.
Lemma zeroed_as h : forall s idx i, valid_idx s idx -> map (fun di => if fst di =? 1 then 0 else snd di) (combine (kdims h i s) idx) = zeroed h i idx.
Proof.
  induction s as [|d s IH]; intros idx i V; inversion V as [|k d' idx' s' Hk V']; subst; [reflexivity|]. cbn [kdims combine map zeroed fst snd]. rewrite (IH idx' (S i) V'). f_equal.
  destruct (h i); [reflexivity|]. destruct (N.eqb_spec d 1); [lia|reflexivity].
Qed.
Lemma expand_kept {A} h s (k : tensor A) : tshape k = kdims h 0 s -> b_expand (map Z.of_N s) k = tab s (fun i => get k (zeroed h 0 i)).
Proof.
  intros S. unfold b_expand. rewrite S, kdims_length, map_length, Nat.sub_diag, Nat.leb_refl. cbn [firstn skipn forallb andb map app]. rewrite expand_dims. cbn [obind].
  apply tab_ext. intros i V. rewrite zeroed_as by exact V. reflexivity.
Qed.
Lemma expand_single {A} s (v : A) : s <> [] -> b_expand (map Z.of_N s) (mkT [1] [v]) = tab s (fun _ => Some v).
Proof.
  intros Hs. unfold b_expand. cbn [tshape length]. rewrite map_length. destruct s as [|d s] using rev_ind; [contradiction|]. clear IHs Hs. rewrite app_length. cbn [length].
  replace (1 <=? length s + 1)%nat with true by (symmetry; apply Nat.leb_le; lia). replace (length s + 1 - 1)%nat with (length s) by lia. rewrite map_app.
  rewrite <- (map_length Z.of_N s). rewrite firstn_app, Nat.sub_diag, firstn_all, skipn_app, Nat.sub_diag, skipn_all. cbn [firstn skipn app map]. rewrite app_nil_r.
  replace (forallb (fun v0 => (0 <=? v0)%Z) (map Z.of_N s)) with true by (symmetry; apply forallb_forall; intros y Hy; apply in_map_iff in Hy; destruct Hy as (q & <- & _); lia).
  cbn [andb combine mapo fst snd]. unfold expand_dim. destruct (Z.eqb_spec (Z.of_N d) (-1)); [lia|]. destruct (Z.ltb_spec (Z.of_N d) 0); [lia|]. rewrite N2Z.id, N.eqb_refl, orb_true_r. cbn [obind].
  replace (map Z.to_N (map Z.of_N s)) with s by (rewrite map_map, (map_ext _ (fun q => q)) by apply N2Z.id; symmetry; apply map_id).
  apply tab_ext. intros i V. pose proof (valid_length _ _ V) as L. rewrite app_length in L. cbn [length] in L. rewrite map_length.
  destruct (skipn (length s) i) as [|a [|b q]] eqn:E; [exfalso; pose proof (f_equal (@length N) E) as L'; rewrite skipn_length in L'; cbn in L'; lia| |reflexivity].
  reflexivity.
Qed.

(** ** The sum of exponentials *)
Lemma exp_shift M l : rsum (map (fun v => exp (v - M)) l) = (rsum (map exp l) * exp (- M))%R.
Proof.
  induction l as [|v l IH]; [cbn; ring|]. cbn [map]. change (rsum (exp (v - M) :: map (fun v => exp (v - M)) l)) with (exp (v - M) + rsum (map (fun v => exp (v - M)) l))%R.
  change (rsum (exp v :: map exp l)) with (exp v + rsum (map exp l))%R. rewrite IH. unfold Rminus. rewrite exp_plus. ring.
Qed.
Lemma log_shift M l w : logarithm (rsum (map exp l)) = Some w -> logarithm (rsum (map (fun v => exp (v - M)) l)) = Some (w - M)%R.
Proof.
  rewrite exp_shift. unfold logarithm. destruct (Rlt_dec 0 (rsum (map exp l))) as [P|]; [|discriminate]. intros E. injection E as <-.
  assert (Q : (0 < rsum (map exp l) * exp (- M))%R) by (apply Rmult_lt_0_compat; [exact P|apply exp_pos]).
  destruct (Rlt_dec 0 (rsum (map exp l) * exp (- M))); [|contradiction]. f_equal. rewrite ln_mult by (assumption || apply exp_pos). rewrite ln_exp. ring.
Qed.
Lemma pointwise {B} (fm fs fz : B -> option real) : forall idx dm ds dz, mapo fm idx = Some dm -> mapo fs idx = Some ds -> mapo fz idx = Some dz ->
  (forall j u v w, In j idx -> fm j = Some u -> fs j = Some v -> fz j = Some w -> logarithm v = Some (w - u)%R) ->
  exists dl, mapo logarithm ds = Some dl /\ mapo (fun xy => Some (fst xy + snd xy)%R) (combine dm dl) = Some dz.
Proof.
  induction idx as [|j idx IH]; intros dm ds dz Em Es Ez H; cbn [mapo] in *; [injection Em as <-; injection Es as <-; injection Ez as <-; exists []; auto|].
  destruct (fm j) as [u|] eqn:Eu; [|discriminate]. destruct (mapo fm idx) as [dm'|]; [|discriminate]. injection Em as <-.
  destruct (fs j) as [v|] eqn:Ev; [|discriminate]. destruct (mapo fs idx) as [ds'|]; [|discriminate]. injection Es as <-.
  destruct (fz j) as [w|] eqn:Ew; [|discriminate]. destruct (mapo fz idx) as [dz'|]; [|discriminate]. injection Ez as <-.
  destruct (IH dm' ds' dz' eq_refl eq_refl eq_refl) as (dl & E1 & E2); [intros k a b c Hk; apply H; right; exact Hk|].
  exists ((w - u)%R :: dl). cbn [mapo combine fst snd]. rewrite (H j u v w (or_introl eq_refl) Eu Ev Ew), E1, E2. split; [reflexivity|]. do 2 f_equal. ring.
Qed.
Lemma reduces_other {A} (c c' : list A -> option A) axes keep (x z : tensor A) : reduces c axes keep x z ->
  (forall j l, valid_idx (kdims (reduced_axis (length (tshape x)) axes) 0 (tshape x)) j -> mapo (get x) (group (reduced_axis (length (tshape x)) axes) (tshape x) j) = Some l -> c l <> None -> c' l <> None) ->
  exists z', reduces c' axes keep x z' /\ tshape z' = tshape z.
Proof.
  intros (k & Rk & Tk & Rz & D) H.
  destruct (tab_Some (tshape k) (fun j => match mapo (get x) (group (reduced_axis (length (tshape x)) axes) (tshape x) j) with Some l => c' l | None => None end)) as [k' Tk'].
  - intros j V. pose proof (get_tab _ _ _ j Tk V) as G. destruct (get_valid k j (proj1 (tab_wf _ _ _ Tk)) V) as (v & Ev & _). rewrite Ev in G. cbv beta in G.
    destruct (mapo _ _) as [l|] eqn:E; [|discriminate G]. rewrite (kept_shape _ _ _ Rk) in V. destruct (c' l) as [w|] eqn:Ew; [exists w; reflexivity|].
    elim (H j l V E); [rewrite <- G; discriminate|exact Ew].
  - exists (mkT (tshape z) (tdata k')). split; [|reflexivity]. exists k'. pose proof (tab_wf _ _ _ Tk') as [_ S]. split; [rewrite S; exact Rk|]. split; [rewrite S; exact Tk'|]. split; [exact Rz|reflexivity].
Qed.
Lemma in_zeroed h s j i : valid_idx (kdims h 0 s) j -> In i (group h s j) -> valid_idx s i /\ zeroed h 0 i = j.
Proof.
  intros V Hi. unfold group in Hi. apply filter_In in Hi. destruct Hi as [Vi Ag]. apply indices_In in Vi. split; [exact Vi|]. rewrite agree_spec in Ag.
  pose proof (valid_length _ _ V) as Lj. rewrite kdims_length in Lj. pose proof (valid_length _ _ Vi) as Li. apply valid_nth in V. destruct V as [_ V].
  assert (Lz : length (zeroed h 0 i) = length i) by (clear; generalize 0%nat; induction i as [|a i IH]; intros k; cbn; [reflexivity|rewrite IH; reflexivity]).
  apply (nth_ext _ _ 0 0); [congruence|]. intros k Hk. rewrite zeroed_nth. cbn [Nat.add]. assert (Ls : (k < length s)%nat) by lia. destruct (h k) eqn:E.
  - specialize (V k 1). rewrite kdims_nth in V. cbn [Nat.add] in V. rewrite E, (nth_error_nth' s 0 Ls) in V. specialize (V eq_refl). lia.
  - exact (Ag k Ls E).
Qed.
(** The data of a result, position by position. *)
Lemma reduces_data {A} (c : list A -> option A) axes keep (x z : tensor A) : reduces c axes keep x z ->
  mapo (fun j => match mapo (get x) (group (reduced_axis (length (tshape x)) axes) (tshape x) j) with Some l => c l | None => None end)
       (indices (kdims (reduced_axis (length (tshape x)) axes) 0 (tshape x))) = Some (tdata z).
Proof.
  intros (k & Rk & Tk & _ & D). rewrite <- (kept_shape _ _ _ Rk), D. unfold tab in Tk. destruct (mapo _ (indices (tshape k))) as [d|]; [|discriminate]. injection Tk as <-. reflexivity.
Qed.

Lemma tensor_same {A} (a b : tensor A) : tshape a = tshape b -> tdata a = tdata b -> a = b.
Proof. destruct a, b. cbn. congruence. Qed.

Section LogSumExp.
  Variables (x z : tensor real) (axes : list Z) (env : string -> option (tensor real)) (nm : string) (keep : bool) (d : dtype) (ty : argty).
  Let s := tshape x.
  Let r := length s.
  Let h := reduced_axis r axes.
  Hypothesis W : twf x.
  Hypothesis Hr : N.of_nat r < r63.
  Hypothesis H0 : (0 < r)%nat.
  Hypothesis He : env nm = Some x.
  Hypothesis Hz : reduces (of_reals QLogSumExp) axes keep x z.
  Hypothesis Ht : out_type d r axes keep ty.
  Hypothesis Hc : keep = true \/ axes = [].
  Hypothesis P : prodN s <> 0.
  Hypothesis Nm : nm <> "input_dtype"%string /\ nm <> "input_shape"%string.

  Lemma lse_held : exists rk rx t, out_rank_of ty = Some rk /\ raw_reduce TLogSumExp nm (dims_of r axes) keep rk = Some rx /\ reval reals env rx = Some t /\ held_as ty t z.
  Proof.
    assert (Hc' : keep = true \/ (length axes < r)%nat) by (destruct Hc as [C|C]; [left; exact C|right; rewrite C; cbn; exact H0]).
    destruct (reduces_other _ (of_reals QMax) _ _ _ _ Hz) as (zm & Rm & Sm).
    { intros j l V E _. pose proof (rgroup_some x _ j l P V E). destruct l; [contradiction|discriminate]. }
    set (env1 := bind (hide (hide env "input_dtype") "input_shape") "input_double" x).
    destruct (chain_held MMax x zm axes QMax env1 (XVar "input_double") keep d ty (rmax_foldable x axes P) W Hr H0 eq_refl Rm Ht Hc') as (rk & tm & Erk & Em & Hm). fold s r in Em.
    set (env2 := bind env1 "input_max_reduced" tm).
    destruct Rm as (km & Rkm & Tkm & Rzm & Dm). assert (Skm : tshape km = kdims h 0 s) by (exact (kept_shape _ _ _ Rkm)).
    assert (Rm : reduces (of_reals QMax) axes keep x zm) by (exists km; auto).
    assert (Wkm : twf km) by (exact (proj1 (tab_wf _ _ _ Tkm))).
    assert (Ey : b_expand (map Z.of_N s) tm = tab s (fun i => get km (zeroed h 0 i))).
    { unfold out_type in Ht. destruct (Bool.bool_dec keep true) as [K|K].
      - rewrite K in Ht. cbn [negb andb] in Ht. destruct Ht as [sh Ht']. rewrite Ht' in Hm. destruct Hm as [-> _]. rewrite K in Rzm. pose proof (kept_shape _ _ _ Rzm) as Szm. fold s r h in Szm.
        assert (Ekm : zm = km) by (apply tensor_same; congruence). rewrite Ekm. apply expand_kept. exact Skm.
      - apply Bool.not_true_is_false in K. destruct Hc as [C|C]; [congruence|]. rewrite K, C in Ht. cbn in Ht. rewrite Ht in Hm. cbn [held_as] in Hm. destruct Hm as [_ ->]. rewrite Dm.
        assert (Sk1 : tshape km = repeat 1 r) by (rewrite Skm, (kdims_ext _ (fun _ => true)) by (intros q _; unfold h; rewrite C; reflexivity); apply kdims_all).
        assert (Ld : exists v, tdata km = [v]). { unfold twf in Wkm. rewrite Sk1, prod_ones in Wkm. destruct (tdata km) as [|v [|]]; try discriminate. eauto. }
        destruct Ld as [v Ld]. rewrite Ld, expand_single by (fold s; intros Q; unfold r in H0; rewrite Q in H0; cbn in H0; lia). apply tab_ext. intros i V. symmetry.
        pose proof (zeroed_valid h s i 0 V) as Vz. rewrite <- Skm in Vz. destruct (get_valid km _ Wkm Vz) as (u & Eu & Iu). rewrite Ld in Iu. destruct Iu as [->|[]]. exact Eu. }
    assert (Km : forall i, valid_idx s i -> exists u, get km (zeroed h 0 i) = Some u).
    { intros i V. pose proof (zeroed_valid h s i 0 V) as Vz. rewrite <- Skm in Vz. destruct (get_valid km _ Wkm Vz) as (u & Eu & _). eauto. }
    destruct (tab_Some s (fun i => get km (zeroed h 0 i)) Km) as [y Ty].
    set (g := fun i => obind (obind (get x i) (fun a => obind (get km (zeroed h 0 i)) (fun b => Some (a - b)%R))) (real_map FExp)).
    assert (Gs : forall i, valid_idx s i -> exists v, g i = Some v).
    { intros i V. destruct (Km i V) as [u Eu]. destruct (get_valid x i W V) as (v & Ev & _). unfold g. rewrite Ev, Eu. cbn. eauto. }
    destruct (tab_Some s g Gs) as [x' Tx']. destruct (tab_wf _ _ _ Tx') as [Wx' Sx'].
    assert (Ex' : obind (b_two (sub_of reals) x y) (b_map reals FExp) = Some x').
    { rewrite (b_two_tab (sub_of reals) s (get x) (fun i => get km (zeroed h 0 i)) x y) by (exact (tab_get x W) || exact Ty).
      destruct (tab s (fun i => obind (get x i) _)) as [w|] eqn:Ew.
      - cbn [obind]. rewrite (b_map_tab FExp s _ w Ew). exact Tx'.
      - exfalso. destruct (tab_Some s (fun i => obind (get x i) (fun a => obind (get km (zeroed h 0 i)) (sub_of reals a)))) as [w' Ew']; [|congruence].
        intros i V. destruct (Km i V) as [u Eu]. destruct (get_valid x i W V) as (v & Ev & _). rewrite Ev, Eu. cbn. eauto. }
    assert (Gx' : forall j l, valid_idx (kdims h 0 s) j -> mapo (get x) (group h s j) = Some l -> exists u, get km j = Some u /\ mapo (get x') (group h s j) = Some (map (fun v => exp (v - u))%R l)).
    { intros j l V E. assert (Vk : valid_idx (tshape km) j) by (rewrite Skm; exact V). destruct (get_valid km j Wkm Vk) as (u & Eu & _). exists u. split; [exact Eu|].
      rewrite (mapo_ext _ (fun i => option_map (fun v => exp (v - u))%R (get x i))); [rewrite mapo_option_map, E; reflexivity|].
      intros i Hi. destruct (in_zeroed h s j i V Hi) as [Vi Ez]. rewrite (get_tab _ _ _ i Tx' Vi). unfold g. rewrite Ez, Eu. destruct (get x i); reflexivity. }
    assert (Rs : exists zs, reduces (of_reals QSum) axes keep x' zs /\ tshape zs = tshape z).
    { destruct Hz as (k & Rk & Tk & Rz & D). destruct (tab_Some (kdims h 0 s) (fun j => match mapo (get x') (group h s j) with Some l => of_reals QSum l | None => None end)) as [ks Tks].
      - intros j V. assert (exists l, mapo (get x') (group h s j) = Some l) as [l ->]; [|eexists; reflexivity]. pose proof (group_got x' Wx' h j) as G. rewrite Sx' in G. exact G.
      - destruct (tab_wf _ _ _ Tks) as [_ Sks]. exists (mkT (tshape z) (tdata ks)). split; [|reflexivity]. exists ks. unfold reduces. rewrite Sx'. fold r h. rewrite Sks.
        cbn [tshape tdata]. split; [rewrite <- Skm; exact Rkm|]. split; [exact Tks|]. split; [exact Rz|reflexivity]. }
    destruct Rs as (zs & Rs & Ss).
    set (env3 := bind env2 "input_exp_reduced" x').
    assert (Er : length (tshape x') = r) by (rewrite Sx'; reflexivity).
    destruct (chain_held MSum x' zs axes QSum env3 (XVar "input_exp_reduced") keep d ty (rsum_foldable x' axes) Wx' ltac:(rewrite Er; exact Hr) ltac:(rewrite Er; exact H0) eq_refl Rs ltac:(rewrite Er; exact Ht) ltac:(rewrite Er; exact Hc')) as (rk' & ts & Erk' & Es & Hs).
    assert (rk' = rk) as -> by congruence. rewrite Er in Es.
    pose proof (reduces_data _ _ _ _ _ Rm) as Pm. pose proof (reduces_data _ _ _ _ _ Rs) as Ps. pose proof (reduces_data _ _ _ _ _ Hz) as Pz. rewrite Sx' in Ps. fold s r h in Pm, Ps, Pz.
    destruct (pointwise _ _ _ _ _ _ _ Pm Ps Pz) as (dl & El & Ea).
    { intros j u v w Hj Eu Ev Ew. apply indices_In in Hj. destruct (mapo (get x) (group h s j)) as [l|] eqn:El; [|discriminate Eu]. destruct (Gx' j l Hj El) as (u' & Eu' & Ex).
      rewrite Ex in Ev. assert (u' = u) as ->.
      { assert (Vk : valid_idx (tshape km) j) by (rewrite Skm; exact Hj). pose proof (get_tab _ _ _ j Tkm Vk) as G. cbv beta in G. fold s r h in G. rewrite El, Eu in G. congruence. }
      injection Ev as <-. apply log_shift. exact Ew. }
    destruct (held_after ty logarithm FLog ts zs (mkT (tshape z) dl) (fun _ => eq_refl) Hs Ss El) as (tl & Etl & Hl).
    assert (Add : exists t, b_two (add_of reals) tm tl = Some t /\ held_as ty t z).
    { unfold b_two. cbn [add_of reals]. destruct ty; cbn [held_as] in Hm, Hl |- *; try contradiction; destruct Hm as [Hm1 Hm2], Hl as [Hl1 Hl2].
      - rewrite Hm2, Hl2. cbn [tshape tdata]. rewrite all2_refl, Ea. eexists. split; [reflexivity|]. rewrite <- Sm. split; [exact Hm1|reflexivity].
      - rewrite Hm1, Hl1. cbn [tshape tdata]. rewrite Sm, all2_refl, Ea. eexists. split; [reflexivity|]. split; [destruct z; reflexivity|exact Hl2]. }
    destruct Add as (t & Et & Ht'). eexists rk, _, t. split; [exact Erk|]. split; [reflexivity|]. split; [|exact Ht'].
    cbn [reval]. unfold hide at 1. destruct Nm as [N1 N2]. unfold hide at 1. destruct (String.eqb_spec nm "input_shape"); [contradiction|]. destruct (String.eqb_spec nm "input_dtype"); [contradiction|].
    rewrite He. cbn [obind]. fold env1. rewrite Em. cbn [obind]. fold env2. change (env2 "input_double"%string) with (Some x). change (env2 "input_max_reduced"%string) with (Some tm). cbn [obind]. fold s.
    rewrite Ey, Ty. cbn [obind]. rewrite Ex'. cbn [obind]. fold env3. rewrite Es. cbn [obind].
    change (bind env3 "exp_sum_reduced" ts "input_max_reduced"%string) with (Some tm). change (bind env3 "exp_sum_reduced" ts "exp_sum_reduced"%string) with (Some ts). cbn [obind].
    rewrite Etl. exact Et.
  Qed.
End LogSumExp.

(** ** One node *)
Lemma real_reduce_node value n a args x rest z o e :
  ninputs n = a :: args -> Forall2 (fun b c => constant_of value b = Some c) args rest -> input_holds e a x ->
  covered_real n a x rest -> onnx_real_reduce n x rest z -> noutputs n = [o] -> infer_reduce value n = IOk (aty o) ->
  exists rx t, gen_reduce value n = Some rx /\ reval reals e rx = Some t /\ held_for (aty o) t z.
Proof.
  intros I Hargs (He & W & t & Ta & Hrk & H0 & Hm) C O Ho T. destruct C as [op t' axes keep Hop Ta' Hfl Ax Kp Hdrop Hlse Hnm Hne]. assert (t' = t) as -> by congruence. clear Ta'.
  destruct O as [op2 axes2 keep2 z Hop2 Ax2 Kp2 Kb _ R]. assert (op2 = op) as -> by congruence. assert (axes2 = axes) as -> by congruence. assert (keep2 = keep) as -> by congruence. clear Hop2 Ax2 Kp2.
  set (r := length (tshape x)) in *. unfold i64_max in Hm. assert (Hr63 : N.of_nat r < r63) by (unfold r63; lia). assert (H0' : (0 < r)%nat) by lia.
  assert (Hl : (length axes <= r)%nat).
  { destruct axes as [|a0 l]; [cbn; lia|]. eapply (axes_len x z (a0 :: l)); try eassumption; discriminate. }
  assert (Kn : Forall (fun b => constant_of value b <> None) args) by (clear -Hargs; induction Hargs as [|b c bs cs H _ IH]; constructor; [congruence|exact IH]).
  assert (Ga : Forall2 (agrees value) args rest) by (clear -Hargs; induction Hargs as [|b c bs cs H _ IH]; constructor; [intros k Hk; congruence|exact IH]).
  destruct (infer_type value n a args t (tt_dtype t) r rest axes keep (aty o) I Ta eq_refl Hrk Kn Ga Ax Kp Hl T) as [Ec Hty].
  pose proof (reduces_wf _ _ _ _ _ R) as Wz.
  assert (Hc : (keep =? 1)%Z = true \/ (length axes < r)%nat) by (destruct Hdrop as [Q|Q]; [left; lia|right; exact Q]).
  assert (Fin : forall tr rk rx tt, reduction_of (ntype n) = Some tr -> out_rank_of (aty o) = Some rk -> raw_reduce tr (aname a) (dims_of r axes) (keep =? 1)%Z rk = Some rx ->
    reval reals e rx = Some tt -> held_as (aty o) tt z -> exists rx t0, gen_reduce value n = Some rx /\ reval reals e rx = Some t0 /\ held_for (aty o) t0 z).
  { intros tr rk rx tt Etr Erk Er Ev Hh. exists (wrap (aty o) rx), tt. split; [|split; [exact (wrap_held _ _ _ _ _ Ev Hh Wz)|exact Hh]].
    unfold gen_reduce. rewrite Etr, I, Ho, Ec, Ta, Erk.
    assert (B : match aty o with
                | TensorT _ => raw_reduce tr (aname a) (dims_of r axes) (keep =? 1)%Z rk
                | ScalarTensor _ => option_map XOne (raw_reduce tr (aname a) (dims_of r axes) (keep =? 1)%Z rk)
                | _ => None end = Some (wrap (aty o) rx)).
    { rewrite Er. destruct (aty o); cbn in Hh; try contradiction; reflexivity. }
    destruct (tt_dtype t); try discriminate Hfl; exact B. }
  assert (Main : forall m base x' op' env, reval reals env base = Some x' -> twf x' -> tshape x' = tshape x -> foldable reals m x' axes (of_reals op') -> forall z', reduces (of_reals op') axes (keep =? 1)%Z x' z' ->
    exists rk tt, out_rank_of (aty o) = Some rk /\ reval reals env (forward_reduce m base (dims_of r axes) (keep =? 1)%Z rk) = Some tt /\ held_as (aty o) tt z').
  { intros m base x' op' env Hb Wx Sx Fd z' R'. assert (Er : length (tshape x') = r) by (rewrite Sx; reflexivity).
    destruct (chain_held m x' z' axes op' env base (keep =? 1)%Z (tt_dtype t) (aty o) Fd Wx ltac:(rewrite Er; exact Hr63) ltac:(rewrite Er; exact H0') Hb R' ltac:(rewrite Er; exact Hty) ltac:(rewrite Er; exact Hc)) as (rk & tt & E1 & E2 & E3).
    rewrite Er in E2. eauto. }
  assert (Kty : forall s q, rrop_of (ntype n) = Some q -> In (s, q) [("ReduceSum", QSum); ("ReduceProd", QProd); ("ReduceMax", QMax); ("ReduceMin", QMin); ("ReduceMean", QMean); ("ReduceL1", QL1); ("ReduceL2", QL2); ("ReduceSumSquare", QSumSquare); ("ReduceLogSum", QLogSum); ("ReduceLogSumExp", QLogSumExp)]%string -> ntype n = s).
  { intros s q Hq Hin. clear -Hq Hin. unfold rrop_of in Hq.
    repeat match type of Hq with (if String.eqb ?p ?q then _ else _) = _ => destruct (String.eqb_spec p q) as [Q|]; [injection Hq as <-; rewrite Q; cbn in Hin; repeat (destruct Hin as [Hin|Hin]; [congruence|]); destruct Hin|] end. discriminate Hq. }
  assert (Hide : In "input_dtype"%string (helpers op) -> hide e "input_dtype" (aname a) = Some x).
  { intros Hin. unfold hide. destruct (String.eqb_spec (aname a) "input_dtype") as [Q|]; [|exact He]. elim Hnm. rewrite Q. exact Hin. }
  destruct op.
  - destruct (Main MSum (XVar (aname a)) x QSum e He W eq_refl (rsum_foldable x axes) z R) as (rk & tt & E1 & E2 & E3).
    refine (Fin TSum rk _ tt _ E1 eq_refl E2 E3). rewrite (Kty "ReduceSum"%string _ Hop ltac:(cbn; tauto)). reflexivity.
  - destruct (Main MProd (XVar (aname a)) x QProd e He W eq_refl (rprod_foldable x axes) z R) as (rk & tt & E1 & E2 & E3).
    refine (Fin TProd rk _ tt _ E1 eq_refl E2 E3). rewrite (Kty "ReduceProd"%string _ Hop ltac:(cbn; tauto)). reflexivity.
  - destruct (Main MMax (XVar (aname a)) x QMax e He W eq_refl (rmax_foldable x axes (Hne eq_refl)) z R) as (rk & tt & E1 & E2 & E3).
    refine (Fin TMax rk _ tt _ E1 eq_refl E2 E3). rewrite (Kty "ReduceMax"%string _ Hop ltac:(cbn; tauto)). reflexivity.
  - destruct (Main MMin (XVar (aname a)) x QMin e He W eq_refl (rmin_foldable x axes (Hne eq_refl)) z R) as (rk & tt & E1 & E2 & E3).
    refine (Fin TMin rk _ tt _ E1 eq_refl E2 E3). rewrite (Kty "ReduceMin"%string _ Hop ltac:(cbn; tauto)). reflexivity.
  - destruct (Main MMean (XVar (aname a)) x QMean e He W eq_refl (rmean_foldable x axes (Hne eq_refl)) z R) as (rk & tt & E1 & E2 & E3).
    refine (Fin TMean rk _ tt _ E1 eq_refl E2 E3). rewrite (Kty "ReduceMean"%string _ Hop ltac:(cbn; tauto)). reflexivity.
  - assert (Hb : reval reals e (XFn FAbs (XVar (aname a))) = Some (mapped_by Rabs x)) by (cbn [reval]; rewrite He; apply b_map_total; reflexivity).
    destruct (Main MSum _ _ QSum e Hb (mapped_wf _ _ W) eq_refl (rsum_foldable _ axes) z (reduces_before (of_reals QSum) Rabs _ _ _ _ R)) as (rk & tt & E1 & E2 & E3).
    refine (Fin TL1 rk _ tt _ E1 eq_refl E2 E3). rewrite (Kty "ReduceL1"%string _ Hop ltac:(cbn; tauto)). reflexivity.
  - assert (Hb : reval reals (hide e "input_dtype") (XFn FSquare (XVar (aname a))) = Some (mapped_by Rsqr x)) by (cbn [reval]; rewrite (Hide (or_introl eq_refl)); apply b_map_total; reflexivity).
    destruct (reduces_after (fun l => of_reals QSum (map Rsqr l)) (fun v => Some (sqrt v)) axes _ x z R) as (z0 & R0 & S0 & M0).
    destruct (Main MSum _ _ QSum _ Hb (mapped_wf _ _ W) eq_refl (rsum_foldable _ axes) z0 (reduces_before (of_reals QSum) Rsqr _ _ _ _ R0)) as (rk & tt & E1 & E2 & E3).
    destruct (held_after (aty o) _ FSqrt tt z0 z (fun _ => eq_refl) E3 S0 M0) as (t1 & E4 & E5).
    apply (Fin TL2 rk (XHide "input_dtype" (XFn FSqrt (forward_reduce MSum (XFn FSquare (XVar (aname a))) (dims_of r axes) (keep =? 1)%Z rk))) t1); try assumption;
      [rewrite (Kty "ReduceL2"%string _ Hop ltac:(cbn; tauto)); reflexivity|reflexivity|]. change (obind (reval reals (hide e "input_dtype") (forward_reduce MSum (XFn FSquare (XVar (aname a))) (dims_of r axes) (keep =? 1)%Z rk)) (b_map reals FSqrt) = Some t1). rewrite E2. exact E4.
  - assert (Hb : reval reals e (XFn FSquare (XVar (aname a))) = Some (mapped_by Rsqr x)) by (cbn [reval]; rewrite He; apply b_map_total; reflexivity).
    destruct (Main MSum _ _ QSum e Hb (mapped_wf _ _ W) eq_refl (rsum_foldable _ axes) z (reduces_before (of_reals QSum) Rsqr _ _ _ _ R)) as (rk & tt & E1 & E2 & E3).
    refine (Fin TSumSquare rk _ tt _ E1 eq_refl E2 E3). rewrite (Kty "ReduceSumSquare"%string _ Hop ltac:(cbn; tauto)). reflexivity.
  - assert (Hb : reval reals (hide e "input_dtype") (XVar (aname a)) = Some x) by (exact (Hide (or_introl eq_refl))).
    destruct (reduces_after (of_reals QSum) logarithm axes _ x z R) as (z0 & R0 & S0 & M0).
    destruct (Main MSum _ _ QSum _ Hb W eq_refl (rsum_foldable _ axes) z0 R0) as (rk & tt & E1 & E2 & E3).
    destruct (held_after (aty o) _ FLog tt z0 z (fun _ => eq_refl) E3 S0 M0) as (t1 & E4 & E5).
    apply (Fin TLogSum rk (XHide "input_dtype" (XFn FLog (forward_reduce MSum (XVar (aname a)) (dims_of r axes) (keep =? 1)%Z rk))) t1); try assumption;
      [rewrite (Kty "ReduceLogSum"%string _ Hop ltac:(cbn; tauto)); reflexivity|reflexivity|]. change (obind (reval reals (hide e "input_dtype") (forward_reduce MSum (XVar (aname a)) (dims_of r axes) (keep =? 1)%Z rk)) (b_map reals FLog) = Some t1). rewrite E2. exact E4.
  - assert (Hk : (keep =? 1)%Z = true \/ axes = []) by (destruct (Hlse eq_refl) as [Q|Q]; [left; lia|right; exact Q]).
    assert (Nm : aname a <> "input_dtype"%string /\ aname a <> "input_shape"%string) by (split; intros Q; apply Hnm; rewrite Q; cbn; auto).
    destruct (lse_held x z axes e (aname a) (keep =? 1)%Z (tt_dtype t) (aty o) W Hr63 H0' He R Hty Hk (Hne eq_refl) Nm) as (rk & rx & tt & E1 & E2 & E3 & E4).
    apply (Fin TLogSumExp rk rx tt); try assumption. rewrite (Kty "ReduceLogSumExp"%string _ Hop ltac:(cbn; tauto)); reflexivity.
Qed.
