(** The emitted chain of reductions along single dimensions, against the
    reduction along all of them at once. *)
From Coq Require Import Lia ZifyBool ZifyNat ZifyN Permutation.
From Verif Require Import Tensor_Proofs Fold_Proofs ShapeOps_Proofs AxisOps_Proofs RankOps_Proofs ShapeRun_Proofs Index_Proofs TensorRun_Proofs.
From Verif Require Import Reduce_Spec Reduce_Model Reduce_Proofs.
Import Tensor_Spec BinOps_Spec RankOps_Spec ShapeRun_Spec TensorRun_Spec.
Local Open Scope N_scope.

Definition dims_of (r : nat) (axes : list Z) : list N := sort_n (map (norm_axis (N.of_nat r)) axes).
Lemma dims_perm r axes : (N.of_nat r < r63) -> (forall a, In a axes -> - Z.of_nat r <= a < Z.of_nat r)%Z ->
  Permutation (map N.to_nat (dims_of r axes)) (map (position r) axes).
Proof.
  intros Hr Hv. unfold dims_of. rewrite (Permutation_map N.to_nat (sort_n_perm _)). rewrite map_map. erewrite map_ext_in; [reflexivity|].
  intros a Ha. cbn beta. rewrite norm_axis_position; [|exact Hr|specialize (Hv a Ha); lia]. rewrite !Nat2N.id. reflexivity.
Qed.
Lemma dims_some r axes : axes <> [] -> dims_of r axes <> [].
Proof.
  intros H C. pose proof (Permutation_length (sort_n_perm (map (norm_axis (N.of_nat r)) axes))) as P. unfold dims_of in C. rewrite C, map_length in P.
  destruct axes; [contradiction|discriminate].
Qed.
Lemma dims_hD r axes k : axes <> [] -> (N.of_nat r < r63) -> (forall a, In a axes -> - Z.of_nat r <= a < Z.of_nat r)%Z ->
  hD (map N.to_nat (dims_of r axes)) k = reduced_axis r axes k.
Proof.
  intros Hne Hr Hv. apply Bool.eq_true_iff_eq. rewrite hD_In. pose proof (dims_perm r axes Hr Hv) as P.
  replace (reduced_axis r axes k) with (named_b r axes k) by (destruct axes; [contradiction|reflexivity]). rewrite named_b_spec. split.
  - intros H. apply (Permutation_in _ P) in H. apply in_map_iff in H. destruct H as (a & E & H). exists a. auto.
  - intros (a & Ha & E). apply (Permutation_in _ (Permutation_sym P)). apply in_map_iff. exists a. auto.
Qed.
Lemma reduced_axis_spec r axes k : reduced_axis r axes k = true <-> reduced r axes k.
Proof.
  destruct axes as [|a l]; [split; [left; reflexivity|reflexivity]|]. change (reduced_axis r (a :: l) k) with (named_b r (a :: l) k).
  rewrite named_b_spec. split; [right; assumption|]. intros [C|C]; [discriminate|exact C].
Qed.
Lemma kept_shape axes s k : reduce_of axes true s k -> k = kdims (reduced_axis (length s) axes) 0 s.
Proof.
  intros (Hv & L & H). apply nth_error_ext. intros i. rewrite kdims_nth. cbn [Nat.add].
  destruct (nth_error s i) as [d|] eqn:E; cbn [option_map].
  - destruct (H i d E) as [H1 H2]. destruct (reduced_axis (length s) axes i) eqn:R.
    + apply H1, reduced_axis_spec, R.
    + apply H2. rewrite <- reduced_axis_spec, R. discriminate.
  - apply nth_error_None in E. apply nth_error_None. lia.
Qed.
Lemma deleted_kdims h P s out : (forall k, h k = true <-> P k) -> forall i, deleted P i s out -> deleted P i (kdims h i s) out.
Proof.
  intros H i D. induction D as [i|i d s out HP D IH|i d s out HP D IH]; cbn [kdims]; [constructor| |].
  - apply del_drop; assumption.
  - destruct (h i) eqn:E; [elim HP; apply H, E|]. apply del_keep; assumption.
Qed.
Lemma prod_ones r : prodN (repeat 1 r) = 1.
Proof. induction r as [|r IH]; [reflexivity|]. cbn [repeat prodN fold_right]. fold (prodN (repeat 1 r)). rewrite IH. reflexivity. Qed.
Lemma kdims_all s : forall i, kdims (fun _ => true) i s = repeat 1 (length s).
Proof. induction s as [|d s IH]; intros i; [reflexivity|]. cbn. rewrite IH. reflexivity. Qed.
Lemma indices_ones r : indices (repeat 1 r) = [repeat 0 r].
Proof. induction r as [|r IH]; [reflexivity|]. cbn [repeat indices]. rewrite IH. reflexivity. Qed.
Lemma tab_ones {A} r (f : list N -> option A) : tab (repeat 1 r) f = option_map (fun v => mkT (repeat 1 r) [v]) (f (repeat 0 r)).
Proof. unfold tab. rewrite indices_ones. cbn [mapo]. destruct (f (repeat 0 r)); reflexivity. Qed.
Lemma repeat_split {A} (a : A) n : repeat a (S n) = repeat a n ++ [a].
Proof. induction n as [|n IH]; [reflexivity|]. cbn [repeat app]. rewrite <- IH. reflexivity. Qed.
Lemma expand_ones {A} r (v : A) : (0 < r)%nat -> b_expand (repeat 1%Z r) (mkT [1] [v]) = Some (mkT (repeat 1 r) [v]).
Proof.
  destruct r as [|r]; [lia|]. intros _. unfold b_expand. cbn [tshape length]. rewrite repeat_length. replace (1 <=? S r)%nat with true by (symmetry; apply Nat.leb_le; lia).
  replace (S r - 1)%nat with r by lia. rewrite (repeat_split 1%Z r).
  assert (F : firstn r (repeat 1%Z r ++ [1%Z]) = repeat 1%Z r) by (rewrite firstn_app, repeat_length, Nat.sub_diag, firstn_all2 by (rewrite repeat_length; lia); apply app_nil_r).
  assert (S' : forall B (b : B), skipn r (repeat b r ++ [b]) = [b]) by (intros B b; rewrite skipn_app, repeat_length, Nat.sub_diag, skipn_all2 by (rewrite repeat_length; lia); reflexivity).
  rewrite F, S'. replace (forallb _ _) with true by (symmetry; apply forallb_forall; intros z Hz; apply repeat_spec in Hz; subst; reflexivity).
  cbn [andb combine mapo fst snd]. replace (expand_dim 1 1) with (Some 1) by reflexivity. cbn [obind].
  replace (map Z.to_N (repeat 1%Z r) ++ [1]) with (repeat 1 (S r)).
  2:{ rewrite repeat_split. f_equal. clear. induction r as [|r IH]; [reflexivity|]. cbn. rewrite IH. reflexivity. }
  rewrite tab_ones, (repeat_split 0), S'. reflexivity.
Qed.

Section Core.
  Context {A : Type}.
  Variable alg : algebra A.
  Variable m : meth.
  Variable T : list A -> option A.
  Variable ok : list A -> Prop.
  Variable ne : bool.
  Hypothesis H1 : forall l, ok l -> fold_of alg m l = T l /\ T l <> None.
  Hypothesis H2 : forall l l', Permutation l l' -> ok l -> ok l' /\ T l = T l'.
  Hypothesis H3 : forall ls, (ne = true -> even ls) -> ok (concat ls) ->
    Forall ok ls /\ forall vs, mapo T ls = Some vs -> ok vs /\ T vs = T (concat ls).
  Hypothesis H4 : forall v, ok [v] -> T [v] = Some v.
  Variable x : tensor A.
  Hypothesis W : twf x.
  Hypothesis Hne : ne = true -> prodN (tshape x) <> 0.
  Variable axes : list Z.
  Variable combine : list A -> option A.
  Let r := length (tshape x).
  Let h := reduced_axis r axes.
  (** Every group can be folded, and its result is what is asked for. *)
  Hypothesis Groups : forall j l, mapo (get x) (group h (tshape x) j) = Some l -> valid_idx (kdims h 0 (tshape x)) j -> ok l /\ T l = combine l.
  Hypothesis Hr : N.of_nat r < r63.
  Variable env : string -> option (tensor A).
  Variable e : rexp.
  Hypothesis He : reval alg env e = Some x.

  Lemma core_allok : allok ok x h.
  Proof. intros j V l E. exact (proj1 (Groups j l E V)). Qed.
  Lemma reval_dims : forall dims e0 y, reval alg env e0 = y ->
    reval alg env (fold_left (XDim m) dims e0) = fold_left (fun o d => obind o (b_dim alg m (N.of_nat d))) (map N.to_nat dims) y.
  Proof.
    induction dims as [|d dims IH]; intros e0 y E; [exact E|]. cbn [fold_left map]. apply IH. cbn [reval]. rewrite E, N2Nat.id. reflexivity.
  Qed.
  Variable keep : bool.
  Variable z : tensor A.
  Hypothesis Hz : reduces combine axes keep x z.

  Lemma core_state : exists k, state T x h = Some k /\ twf k /\ tshape k = kdims h 0 (tshape x) /\ tdata z = tdata k /\ reduce_of axes keep (tshape x) (tshape z).
  Proof.
    destruct Hz as (k & Rk & Tk & Rz & D). exists k. pose proof (kept_shape _ _ _ Rk) as Sk. fold r h in Sk. destruct (tab_wf _ _ _ Tk) as [Wk _].
    split; [|auto]. unfold state. rewrite <- Sk. etransitivity; [|exact Tk]. apply tab_ext. intros j V. rewrite Sk in V. unfold total_at. fold r h.
    destruct (mapo (get x) (group h (tshape x) j)) as [l|] eqn:E; [|reflexivity]. cbn [obind]. exact (proj2 (Groups j l E V)).
  Qed.
  Lemma core_valid : valid_axes r axes.
  Proof. destruct Hz as (k & (V & _) & _). exact V. Qed.
  Lemma core_chain : axes <> [] -> exists k, reval alg env (fold_left (XDim m) (dims_of r axes) e) = Some k /\ twf k /\ tshape k = kdims h 0 (tshape x) /\ tdata z = tdata k.
  Proof.
    intros Ha. destruct core_state as (k & Ek & Wk & Sk & Dk & _). exists k. split; [|auto]. rewrite (reval_dims _ _ _ He). destruct core_valid as [Hv Hn].
    pose proof (dims_perm r axes Hr Hv) as P.
    assert (X : forall i, hD (map N.to_nat (dims_of r axes)) i = h i) by (intros i; apply dims_hD; assumption).
    rewrite (chain_all alg m T ok ne H1 H2 H3 H4 x W Hne).
    - rewrite <- Ek. unfold state. rewrite (kdims_ext _ h) by (intros; apply X). apply tab_ext. intros j _. unfold total_at. rewrite (group_ext _ h) by (intros; apply X). reflexivity.
    - apply (Permutation_NoDup (Permutation_sym P)). exact Hn.
    - intros a Hin. apply (Permutation_in _ P) in Hin. apply in_map_iff in Hin. destruct Hin as (b & <- & Hb). apply position_lt. specialize (Hv b Hb). fold r. lia.
    - intros j V l E. rewrite (kdims_ext _ h) in V by (intros; apply X). rewrite (group_ext _ h) in E by (intros; apply X). exact (core_allok j V l E).
  Qed.
  Lemma core_all : axes = [] -> exists v, reval alg env (XAll m e) = Some (mkT [1] [v]) /\ tdata z = [v].
  Proof.
    intros Ha. destruct core_state as (k & Ek & Wk & Sk & Dk & _).
    assert (Eh : forall i, h i = true) by (intros i; unfold h; rewrite Ha; reflexivity).
    assert (G : forall j, mapo (get x) (group h (tshape x) j) = Some (tdata x)).
    { intros j. rewrite (group_ext _ (fun _ => true)) by (intros; apply Eh). apply group_all. exact W. }
    unfold state in Ek. rewrite (kdims_ext _ (fun _ => true)) in Ek by (intros; apply Eh). rewrite kdims_all, tab_ones in Ek.
    unfold total_at in Ek. rewrite G in Ek. cbn [obind] in Ek. destruct (T (tdata x)) as [v|] eqn:Et; [|discriminate]. injection Ek as Ek.
    exists v. split; [|rewrite Dk, <- Ek; reflexivity]. cbn [reval]. rewrite He. cbn [obind].
    apply (all_at_once alg m T ok H1 x); [|exact Et].
    apply (Groups (repeat 0 r) (tdata x) (G _)). rewrite (kdims_ext _ (fun _ => true)) by (intros; apply Eh). rewrite kdims_all. apply indices_In. fold r. rewrite indices_ones. left. reflexivity.
  Qed.
  (** What is emitted, case by case. *)
  Lemma core_keep_dims k : axes <> [] -> keep = true -> reval alg env (forward_reduce m e (dims_of r axes) keep k) = Some z.
  Proof.
    intros Ha Hk; try rewrite Hk. destruct (core_chain Ha) as (y & E & Wy & Sy & Dy). unfold forward_reduce.
    destruct (dims_of r axes) as [|d0 dims] eqn:Ed.
    { elim (dims_some r axes Ha Ed). }
    rewrite <- Ed in *. unfold reduce_by_dims. rewrite E. f_equal. destruct core_state as (_ & _ & _ & _ & _ & Rz). rewrite Hk in Rz. pose proof (kept_shape _ _ _ Rz) as Sz.
    fold r h in Sz. destruct y, z. cbn in *. congruence.
  Qed.
  Lemma core_keep_all : axes = [] -> keep = true -> (0 < r)%nat -> reval alg env (forward_reduce m e (dims_of r axes) keep (N.of_nat r)) = Some z.
  Proof.
    intros Ha Hk H0. rewrite Hk. destruct (core_all Ha) as (v & E & D). destruct core_state as (_ & _ & _ & _ & _ & Rz). rewrite Hk in Rz. pose proof (kept_shape _ _ _ Rz) as Sz. fold r h in Sz.
    replace (dims_of r axes) with (@nil N) by (rewrite Ha; reflexivity). unfold forward_reduce. cbn [reval]. cbn [reval] in E. rewrite E. cbn [obind]. rewrite Nat2N.id, (expand_ones r v H0). f_equal.
    assert (Sz' : tshape z = repeat 1 r) by (rewrite Sz, (kdims_ext _ (fun _ => true)) by (intros i _; unfold h; rewrite Ha; reflexivity); apply kdims_all).
    destruct z. cbn in *. congruence.
  Qed.
  Lemma core_all_scalar : axes = [] -> keep = false ->
    tshape z = [] /\ exists v, tdata z = [v] /\ reval alg env (forward_reduce m e (dims_of r axes) keep 1) = Some (mkT [1] [v]).
  Proof.
    intros Ha Hk; try rewrite Hk. destruct (core_all Ha) as (v & E & D). destruct core_state as (_ & _ & _ & _ & _ & Rz). rewrite Hk in Rz. split.
    - destruct Rz as [_ Rz]. rewrite Ha in Rz. exact (deleted_all _ (fun k => or_introl eq_refl) _ _ _ Rz).
    - exists v. split; [exact D|]. replace (dims_of r axes) with (@nil N) by (rewrite Ha; reflexivity). exact E.
  Qed.
  Lemma core_len : axes <> [] -> keep = false -> (length (tshape z) + length axes = r)%nat.
  Proof.
    intros Ha Hk; try rewrite Hk. destruct core_state as (_ & _ & _ & _ & _ & (Hv & D)). rewrite Hk in D. fold r in Hv.
    assert (D' : deleted (named r axes) 0 (tshape x) (tshape z)).
    { eapply deleted_ext; [|exact D]. intros i. unfold reduced. split; [intros [C|C]; [contradiction|exact C]|intros C; right; exact C]. }
    pose proof (deleted_length _ _ _ _ D' (named_b r axes) (named_b_spec _ _)) as Lo. pose proof (count_named _ _ Hv _ (named_b_spec r axes)) as Cn. fold r in Lo. lia.
  Qed.
  Lemma core_squeezed k : axes <> [] -> keep = false -> (length axes < r)%nat -> k = N.of_nat (length (tshape z)) ->
    reval alg env (XSqueeze (fold_left (XDim m) (dims_of r axes) e) k (dims_of r axes)) = Some z.
  Proof.
    intros Ha Hk Hl ->. destruct (core_chain Ha) as (y & E & Wy & Sy & Dy). destruct core_state as (_ & _ & _ & _ & _ & (Hv & D)). rewrite Hk in D. fold r in Hv.
    cbn [reval]. rewrite E. cbn [obind]. destruct Hv as [Hv Hn].
    pose proof (dims_perm r axes Hr Hv) as P.
    assert (Hb : forall d, In d (dims_of r axes) -> (N.to_nat d < r)%nat).
    { intros d Hd. assert (I : In (N.to_nat d) (map (position r) axes)) by (apply (Permutation_in _ P), in_map, Hd).
      apply in_map_iff in I. destruct I as (b & <- & Hb). apply position_lt. specialize (Hv b Hb). lia. }
    assert (Hp : forall d, In d (dims_of r axes) -> position r (Z.of_N d) = N.to_nat d).
    { intros d Hd. specialize (Hb d Hd). unfold position. rewrite Z.mod_small by lia. lia. }
    assert (Em : map (position r) (map Z.of_N (dims_of r axes)) = map N.to_nat (dims_of r axes)).
    { rewrite map_map. apply map_ext_in. exact Hp. }
    assert (Ly : length (tshape y) = r) by (rewrite Sy, kdims_length; reflexivity).
    assert (Hnm : forall i, named r (map Z.of_N (dims_of r axes)) i <-> h i = true).
    { intros i. unfold h. rewrite <- (dims_hD r axes i Ha Hr Hv), hD_In, <- Em, in_map_iff. unfold named. split; intros (a & Q1 & Q2); exists a; auto. }
    rewrite (b_squeeze_ok (map Z.of_N (dims_of r axes)) (tshape z) y Wy).
    - f_equal. rewrite <- Dy. destruct z. reflexivity.
    - intros C. apply map_eq_nil in C. exact (dims_some r axes Ha C).
    - unfold squeeze_of. rewrite Ly, Sy. split; [|split].
      + split; [|rewrite Em; exact (Permutation_NoDup (Permutation_sym P) Hn)]. intros a Hin. apply in_map_iff in Hin. destruct Hin as (d & <- & Hd). specialize (Hb d Hd). lia.
      + intros i d Hi E'. apply Hnm in Hi. rewrite kdims_nth in E'. cbn [Nat.add] in E'. rewrite Hi in E'. destruct (nth_error (tshape x) i); [|discriminate]. injection E' as <-. reflexivity.
      + apply deleted_kdims; [intros i; symmetry; apply Hnm|]. eapply deleted_ext; [|exact D]. intros i. fold r. rewrite <- reduced_axis_spec. fold h. symmetry. apply Hnm.
  Qed.
  Lemma core_drop k : axes <> [] -> keep = false -> (length axes < r)%nat -> k = N.of_nat (length (tshape z)) ->
    reval alg env (forward_reduce m e (dims_of r axes) keep k) = Some z.
  Proof.
    intros Ha Hk Hl Ek. pose proof (core_squeezed k Ha Hk Hl Ek) as E. unfold forward_reduce.
    destruct (dims_of r axes) as [|d0 dims] eqn:Ed.
    { elim (dims_some r axes Ha Ed). }
    rewrite <- Ed in *. unfold reduce_by_dims. rewrite Hk. replace (k =? 0) with false; [exact E|]. pose proof (core_len Ha Hk). lia.
  Qed.
  (** All of them named: one element, in ones. *)
  Lemma core_every : axes <> [] -> keep = false -> length axes = r ->
    tshape z = [] /\ exists v, tdata z = [v] /\ reval alg env (XOne (fold_left (XDim m) (dims_of r axes) e)) = Some (mkT [1] [v]).
  Proof.
    intros Ha Hk Hl. pose proof (core_len Ha Hk) as L. assert (Sz : tshape z = []) by (apply length_zero_iff_nil; lia). split; [exact Sz|].
    destruct (core_chain Ha) as (y & E & Wy & Sy & Dy). destruct core_state as (_ & _ & _ & _ & _ & (Hv & D)). rewrite Hk, Sz in D. fold r in Hv.
    assert (Pk : forall s i, deleted (reduced r axes) i s [] -> kdims h i s = repeat 1 (length s)).
    { clear -h. induction s as [|d s IH]; intros i D; [reflexivity|]. cbn. inversion D; subst. rewrite (proj2 (reduced_axis_spec r axes i) ltac:(assumption) : h i = true).
      rewrite IH by assumption. reflexivity. }
    rewrite (Pk _ _ D) in Sy. unfold twf in Wy. rewrite Sy, prod_ones in Wy. destruct (tdata y) as [|v [|? ?]] eqn:Ey; try discriminate Wy.
    exists v. split; [congruence|]. cbn [reval]. rewrite E. cbn [obind]. rewrite (b_reshape_to_ok [1%Z] [1] y).
    - rewrite Ey. reflexivity.
    - unfold twf. rewrite Ey, Sy, prod_ones. reflexivity.
    - rewrite Sy, prod_ones. discriminate.
    - intros q [<-|[]]. lia.
    - rewrite Sy. unfold reshape_of. split; [reflexivity|]. split; [rewrite prod_ones; reflexivity|]. split; [|split; [discriminate|]].
      + intros [|i] j Ei Ej; [discriminate|]. destruct i; discriminate.
      + intros [|i] q d Ei Ed; [|destruct i; discriminate]. injection Ei as <-. injection Ed as <-. left. lia.
  Qed.
End Core.
