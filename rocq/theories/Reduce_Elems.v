(** Sums, products and extrema of integers and booleans can be taken part by
    part. *)
From Coq Require Import Lia ZifyBool ZifyNat ZifyN Permutation.
From Verif Require Import Tensor_Proofs TensorRun_Proofs.
From Verif Require Import Reduce_Spec Reduce_Model Reduce_Proofs.
Import Tensor_Spec BinOps_Spec RankOps_Spec ShapeRun_Spec TensorRun_Spec.
Local Open Scope Z_scope.

Notation zfits d z := (BinOps_Spec.fits d (EI z)).
Lemma range_shape d lo hi : int_range d = Some (lo, hi) -> (lo = 0 \/ lo = - hi - 1) /\ 0 <= hi.
Proof. destruct d; cbn; intros H; try discriminate; injection H as <- <-; lia. Qed.
Lemma fits_range d z : zfits d z = true <-> exists lo hi, int_range d = Some (lo, hi) /\ lo <= z <= hi.
Proof.
  unfold BinOps_Spec.fits. destruct (int_range d) as [[lo hi]|]; [|split; [discriminate|intros (a & b & E & _); discriminate]].
  split; [intros H; exists lo, hi; split; [reflexivity|lia]|]. intros (a & b & E & H). injection E as <- <-. lia.
Qed.
Definition numbers (l : list elt) (zs : list Z) : Prop := mapo int_of l = Some zs.
Lemma numbers_perm l l' zs : Permutation l l' -> numbers l zs -> exists zs', numbers l' zs' /\ Permutation zs zs'.
Proof. intros P E. exact (mapo_perm int_of l l' P zs E). Qed.

(** ** Sum and product *)
Section Monoid.
  Variable d : dtype.
  Variable m : meth.
  Variable f : Z -> Z -> Z.
  Variable u : Z.
  Variable w : Z -> Z.
  Hypothesis Code : forall l, int_fold d m l = fold_fits d f u l.
  Hypothesis NotBool : d <> BoolT.
  Hypothesis Assoc : forall a b c, f a (f b c) = f (f a b) c.
  Hypothesis Comm : forall a b, f a b = f b a.
  Hypothesis Unit : forall a, f u a = a.
  Hypothesis Wu : w u = u.
  Hypothesis U0 : 0 <= u.
  Hypothesis Wle : forall z, u <= w z /\ Z.abs z <= w z.
  Hypothesis Wf : forall a b, w (f a b) <= f (w a) (w b).
  Hypothesis Mono : forall a b a' b', u <= a <= a' -> u <= b <= b' -> u <= f a b <= f a' b'.
  Hypothesis Pos : forall a b, 0 <= a -> 0 <= b -> 0 <= f a b.

  Definition all (l : list Z) : Z := fold_right f u l.
  Definition weight (l : list Z) : Z := all (map w l).
  Definition T_m (l : list elt) : option elt := obind (mapo int_of l) (fun zs => fitted d (all zs)).
  Definition ok_m (l : list elt) : Prop := exists zs, numbers l zs /\ zfits d (weight zs) = true /\ Forall (fun z => zfits d z = true) zs.

  Lemma all_app l l' : all (l ++ l') = f (all l) (all l').
  Proof. induction l as [|z l IH]; cbn [app all fold_right]; [symmetry; apply Unit|]. fold (all (l ++ l')) (all l). rewrite IH. apply Assoc. Qed.
  Lemma all_concat ls : all (concat ls) = all (map all ls).
  Proof. induction ls as [|l ls IH]; [reflexivity|]. cbn [concat map]. rewrite all_app, IH. reflexivity. Qed.
  Lemma all_perm l l' : Permutation l l' -> all l = all l'.
  Proof.
    induction 1 as [|z l l' H IH|y z l|l l' l'' H1 IH1 H2 IH2]; [reflexivity|cbn; fold (all l) (all l'); rewrite IH; reflexivity| |congruence].
    cbn. fold (all l). rewrite !Assoc. rewrite (Comm z y). reflexivity.
  Qed.
  Lemma weight_app l l' : weight (l ++ l') = f (weight l) (weight l').
  Proof. unfold weight. rewrite map_app. apply all_app. Qed.
  Lemma weight_ge l : u <= weight l.
  Proof.
    induction l as [|z l IH]; [cbn; lia|]. unfold weight in *. cbn. fold (all (map w l)). pose proof (proj1 (Wle z)). pose proof (Mono (w z) (all (map w l)) (w z) (all (map w l)) ltac:(lia) ltac:(lia)). lia.
  Qed.
  Lemma weight_all l : w (all l) <= weight l.
  Proof.
    induction l as [|z l IH]; [cbn; lia|]. unfold weight in *. cbn. fold (all l) (all (map w l)).
    transitivity (f (w z) (w (all l))); [apply Wf|]. apply Mono; [split; [apply Wle|lia]|]. split; [apply Wle|exact IH].
  Qed.
  Lemma weight_part l l' : weight l <= weight (l ++ l') /\ weight l' <= weight (l ++ l').
  Proof.
    rewrite weight_app. pose proof (weight_ge l). pose proof (weight_ge l').
    pose proof (Mono (weight l) u (weight l) (weight l') ltac:(lia) ltac:(lia)) as A1. pose proof (Mono u (weight l') (weight l) (weight l') ltac:(lia) ltac:(lia)) as A2.
    rewrite (Comm _ u), Unit in A1. rewrite Unit in A2. lia.
  Qed.
  Lemma weight_perm l l' : Permutation l l' -> weight l = weight l'.
  Proof. intros P. apply all_perm, Permutation_map, P. Qed.
  (** Anything whose weight is at most one that fits, fits. *)
  Lemma fits_all l W : zfits d W = true -> weight l <= W -> Forall (fun z => zfits d z = true) l -> zfits d (all l) = true.
  Proof.
    intros HW Le F. apply fits_range in HW. destruct HW as (lo & hi & E & R). destruct (range_shape _ _ _ E) as [S Hi].
    apply fits_range. exists lo, hi. split; [exact E|]. pose proof (weight_all l) as A. pose proof (proj2 (Wle (all l))) as B.
    destruct S as [->| ->]; [|lia]. split; [|lia]. clear -F E U0 Pos. induction F as [|z l Hz F IH]; [exact U0|].
    cbn. fold (all l). apply Pos; [|exact IH]. apply fits_range in Hz. destruct Hz as (a & b & E' & R). rewrite E in E'. injection E' as <- <-. lia.
  Qed.
  Lemma fold_fits_all W : zfits d W = true -> forall l done, weight (done ++ l) <= W -> Forall (fun z => zfits d z = true) (done ++ l) ->
    fold_fits d f (all done) l = Some (EI (all (done ++ l))).
  Proof.
    intros HW. induction l as [|z l IH]; intros done Le F; [rewrite app_nil_r; reflexivity|]. cbn [fold_fits].
    assert (E : f (all done) z = all (done ++ [z])).
    { rewrite all_app. cbn. rewrite (Comm z u), Unit. reflexivity. }
    replace (done ++ z :: l) with ((done ++ [z]) ++ l) in * by (rewrite <- app_assoc; reflexivity).
    rewrite E. rewrite (fits_all (done ++ [z]) W HW); [apply IH; assumption| |].
    - pose proof (proj1 (weight_part (done ++ [z]) l)). lia.
    - apply Forall_app in F. exact (proj1 F).
  Qed.
  Lemma T_ok l zs : numbers l zs -> T_m l = fitted d (all zs). Proof. intros E. unfold T_m. rewrite E. reflexivity. Qed.
  Lemma m_H1 l : ok_m l -> fold_of (elements d) m l = T_m l /\ T_m l <> None.
  Proof.
    intros (zs & E & Wf' & F). rewrite (T_ok l zs E). unfold fitted. rewrite (fits_all zs _ Wf' (Z.le_refl _) F). split; [|discriminate].
    cbn [fold_of elements]. replace (match d with BoolT => obind (mapo bool_of l) (bool_fold m) | _ => obind (mapo int_of l) (int_fold d m) end) with (obind (mapo int_of l) (int_fold d m)) by (destruct d; congruence).
    rewrite E. cbn [obind]. rewrite Code. exact (fold_fits_all _ Wf' zs [] (Z.le_refl _) F).
  Qed.
  Lemma m_H2 l l' : Permutation l l' -> ok_m l -> ok_m l' /\ T_m l = T_m l'.
  Proof.
    intros P (zs & E & Wf' & F). destruct (numbers_perm _ _ _ P E) as (zs' & E' & P'). split.
    - exists zs'. split; [exact E'|]. split; [rewrite <- (weight_perm _ _ P'); exact Wf'|]. exact (Permutation_Forall P' F).
    - rewrite (T_ok _ _ E), (T_ok _ _ E'), (all_perm _ _ P'). reflexivity.
  Qed.
  Lemma fits_weight_mono a b : 0 <= a -> zfits d b = true -> a <= b -> zfits d a = true.
  Proof. rewrite !fits_range. intros Ha (lo & hi & E & R) Le. exists lo, hi. split; [exact E|]. destruct (range_shape _ _ _ E). lia. Qed.
  Lemma parts_fit : forall zss, zfits d (weight (concat zss)) = true -> Forall (fun z => zfits d z = true) (concat zss) ->
    Forall (fun zs => zfits d (weight zs) = true /\ Forall (fun z => zfits d z = true) zs) zss.
  Proof.
    induction zss as [|zs zss IH]; intros HW F; [constructor|]. cbn [concat] in *. pose proof (weight_part zs (concat zss)) as [A B]. apply Forall_app in F. destruct F as [F1 F2].
    constructor.
    - split; [|exact F1]. apply (fits_weight_mono _ _ (Z.le_trans _ _ _ U0 (weight_ge zs)) HW A).
    - apply IH; [|exact F2]. apply (fits_weight_mono _ _ (Z.le_trans _ _ _ U0 (weight_ge (concat zss))) HW B).
  Qed.
  Lemma m_H3 ls : (false = true -> even ls) -> ok_m (concat ls) ->
    Forall ok_m ls /\ forall vs, mapo T_m ls = Some vs -> ok_m vs /\ T_m vs = T_m (concat ls).
  Proof.
    intros _ (zs & E & HW & F). unfold numbers in E. rewrite mapo_concat in E. destruct (mapo (mapo int_of) ls) as [zss|] eqn:Ez; [|discriminate].
    cbn in E. injection E as <-. pose proof (parts_fit zss HW F) as P. split.
    - clear HW F. revert zss Ez P. induction ls as [|l ls IH]; intros zss Ez P; [constructor|]. cbn [mapo] in Ez.
      destruct (mapo int_of l) as [zs|] eqn:E; [|discriminate]. destruct (mapo (mapo int_of) ls) as [zss'|]; [|discriminate]. injection Ez as <-.
      inversion P as [|? ? [P1 P2] P3]; subst. constructor; [exists zs; auto|]. exact (IH zss' eq_refl P3).
    - intros vs Ev. assert (Evs : vs = map (fun zs => EI (all zs)) zss).
      { clear HW F. revert zss vs Ez P Ev. induction ls as [|l ls IH]; intros zss vs Ez P Ev; cbn [mapo] in *.
        - injection Ez as <-. injection Ev as <-. reflexivity.
        - destruct (mapo int_of l) as [zs|] eqn:E; [|discriminate]. destruct (mapo (mapo int_of) ls) as [zss'|]; [|discriminate]. injection Ez as <-.
          inversion P as [|? ? [P1 P2] P3]; subst. rewrite (T_ok l zs E) in Ev. unfold fitted in Ev. rewrite (fits_all zs _ P1 (Z.le_refl _) P2) in Ev.
          destruct (mapo T_m ls) as [vs'|]; [|discriminate]. injection Ev as <-. cbn [map]. rewrite <- (IH zss' vs' eq_refl P3 eq_refl). reflexivity. }
      assert (En : numbers vs (map all zss)).
      { rewrite Evs. unfold numbers. rewrite mapo_map. clear. induction zss as [|zs zss IH]; [reflexivity|]. cbn [mapo map]. rewrite IH. reflexivity. }
      assert (Lw : weight (map all zss) <= weight (concat zss)).
      { clear HW F P Ez Ev Evs En. induction zss as [|zs zss IH]; [cbn; lia|]. cbn [map concat]. rewrite weight_app.
        change (all zs :: map all zss) with ([all zs] ++ map all zss). rewrite weight_app. apply Mono; [|split; [apply weight_ge|exact IH]].
        split; [apply weight_ge|]. unfold weight at 1. cbn. rewrite Comm, Unit. apply weight_all. }
      assert (Ff : Forall (fun z => zfits d z = true) (map all zss)).
      { apply Forall_forall. intros z Hz. apply in_map_iff in Hz. destruct Hz as (zs & <- & Hz). rewrite Forall_forall in P. destruct (P zs Hz) as [P1 P2].
        exact (fits_all zs _ P1 (Z.le_refl _) P2). }
      split.
      + exists (map all zss). split; [exact En|]. split; [|exact Ff]. apply (fits_weight_mono _ _ (Z.le_trans _ _ _ U0 (weight_ge (map all zss))) HW Lw).
      + rewrite (T_ok _ _ En), (T_ok (concat ls) (concat zss)) by (unfold numbers; rewrite mapo_concat, Ez; reflexivity). rewrite all_concat. reflexivity.
  Qed.
  Lemma m_H4 v : ok_m [v] -> T_m [v] = Some v.
  Proof.
    intros (zs & E & _ & F). unfold numbers in E. cbn in E. destruct v as [z|b|x]; cbn in E; try discriminate. injection E as <-.
    inversion F as [|? ? Hz _]; subst. unfold T_m. cbn. rewrite Comm, Unit. unfold fitted. rewrite Hz. reflexivity.
  Qed.
End Monoid.

(** ** Extrema *)
Definition fold1 {B} (f : B -> B -> B) (l : list B) : option B := match l with [] => None | z :: r => Some (fold_right f z r) end.
Section Fold1.
  Context {B : Type}.
  Variable f : B -> B -> B.
  Hypothesis Assoc : forall a b c, f a (f b c) = f (f a b) c.
  Hypothesis Comm : forall a b, f a b = f b a.
  Lemma fold1_cons z r a : fold1 f r = Some a -> fold1 f (z :: r) = Some (f z a).
  Proof.
    destruct r as [|y r]; [discriminate|]. cbn [fold1]. intros E. injection E as <-. f_equal. cbn [fold_right].
    revert y z. induction r as [|w r IH]; intros y z; cbn [fold_right]; [apply Comm|].
    rewrite Assoc, (Comm y w), <- Assoc, (IH y z), !Assoc, (Comm w z). reflexivity.
  Qed.
  Lemma fold1_some l : l <> [] -> exists a, fold1 f l = Some a.
  Proof. destruct l; [contradiction|]. eexists. reflexivity. Qed.
  Lemma fold1_perm l l' : Permutation l l' -> fold1 f l = fold1 f l'.
  Proof.
    induction 1 as [|z l l' H IH|y z l|l l' l'' H1 IH1 H2 IH2]; [reflexivity| | |congruence].
    - destruct l as [|a l]; [apply Permutation_nil in H; subst; reflexivity|]. destruct (fold1_some (a :: l) ltac:(discriminate)) as [b E].
      rewrite (fold1_cons z _ b E). rewrite IH in E. rewrite (fold1_cons z _ b E). reflexivity.
    - destruct l as [|a l]; [cbn; f_equal; apply Comm|]. destruct (fold1_some (a :: l) ltac:(discriminate)) as [b E].
      rewrite (fold1_cons y (z :: a :: l) (f z b)) by (apply fold1_cons; exact E). rewrite (fold1_cons z (y :: a :: l) (f y b)) by (apply fold1_cons; exact E).
      f_equal. rewrite !Assoc, (Comm y z). reflexivity.
  Qed.
  Lemma fold1_app l l' a b : fold1 f l = Some a -> fold1 f l' = Some b -> fold1 f (l ++ l') = Some (f a b).
  Proof.
    revert a. induction l as [|z l IH]; intros a Ea Eb; [discriminate|]. cbn [app]. destruct l as [|y l].
    - cbn in Ea. injection Ea as <-. apply fold1_cons. exact Eb.
    - destruct (fold1_some (y :: l) ltac:(discriminate)) as [c Ec]. rewrite (fold1_cons z _ c Ec) in Ea. injection Ea as <-.
      rewrite (fold1_cons z _ (f c b)) by (apply IH; assumption). rewrite Assoc. reflexivity.
  Qed.
  Lemma fold1_concat ls vs : Forall (fun p => p <> []) ls -> mapo (fold1 f) ls = Some vs -> fold1 f vs = fold1 f (concat ls).
  Proof.
    intros F. revert vs. induction F as [|l ls Hl F IH]; intros vs E; [injection E as <-; reflexivity|]. cbn [mapo] in E.
    destruct (fold1 f l) as [a|] eqn:Ea; [|discriminate]. destruct (mapo (fold1 f) ls) as [vs'|] eqn:Ev; [|discriminate]. injection E as <-. cbn [concat].
    specialize (IH vs' eq_refl). destruct ls as [|l' ls].
    - injection Ev as <-. cbn [concat]. rewrite app_nil_r. cbn. symmetry. exact Ea.
    - inversion F as [|? ? Hl' F']; subst. destruct (fold1_some (concat (l' :: ls))) as [b Eb]; [destruct l'; [contradiction|discriminate]|].
      rewrite (fold1_app l _ a b Ea Eb). apply fold1_cons. rewrite IH. exact Eb.
  Qed.
  Hypothesis Sel : forall a b, f a b = a \/ f a b = b.
  Lemma fold1_in l a : fold1 f l = Some a -> In a l.
  Proof.
    destruct l as [|z r]; [discriminate|]. cbn. intros E. injection E as <-. induction r as [|y r IH]; [left; reflexivity|]. cbn.
    destruct (Sel y (fold_right f z r)) as [->| ->]; [right; left; reflexivity|]. destruct IH as [<-|IH]; [left; reflexivity|right; right; exact IH].
  Qed.
End Fold1.

Section Extremum.
  Context {B : Type}.
  Variable d : dtype.
  Variable m : meth.
  Variable f : B -> B -> B.
  Variable pick : elt -> option B.
  Variable emb : B -> elt.
  Variable good : B -> Prop.
  Hypothesis PE : forall b, pick (emb b) = Some b.
  Hypothesis EP : forall v b, pick v = Some b -> v = emb b.
  Hypothesis Assoc : forall a b c, f a (f b c) = f (f a b) c.
  Hypothesis Comm : forall a b, f a b = f b a.
  Hypothesis Sel : forall a b, f a b = a \/ f a b = b.
  Hypothesis Code : forall l bs, mapo pick l = Some bs -> bs <> [] -> Forall good bs -> fold_of (elements d) m l = option_map emb (fold1 f bs).
  Definition T_x (l : list elt) : option elt := obind (mapo pick l) (fun bs => option_map emb (fold1 f bs)).
  Definition ok_x (l : list elt) : Prop := l <> [] /\ exists bs, mapo pick l = Some bs /\ Forall good bs.
  Lemma picked l bs : mapo pick l = Some bs -> l <> [] -> bs <> [].
  Proof. intros E N C. subst. apply mapo_length in E. destruct l; [contradiction|discriminate]. Qed.
  Lemma x_H1 l : ok_x l -> fold_of (elements d) m l = T_x l /\ T_x l <> None.
  Proof.
    intros (N & bs & E & G). pose proof (picked _ _ E N) as N'. rewrite (Code l bs E N' G). unfold T_x. rewrite E. cbn [obind].
    split; [reflexivity|]. destruct bs; [contradiction|discriminate].
  Qed.
  Lemma x_H2 l l' : Permutation l l' -> ok_x l -> ok_x l' /\ T_x l = T_x l'.
  Proof.
    intros P (N & bs & E & G). destruct (mapo_perm pick _ _ P _ E) as (bs' & E' & P'). split.
    - split; [intros ->; apply N, Permutation_nil, Permutation_sym, P|]. exists bs'. split; [exact E'|exact (Permutation_Forall P' G)].
    - unfold T_x. rewrite E, E'. cbn [obind]. rewrite (fold1_perm f Assoc Comm _ _ P'). reflexivity.
  Qed.
  Lemma x_H3 ls : (true = true -> even ls) -> ok_x (concat ls) ->
    Forall ok_x ls /\ forall vs, mapo T_x ls = Some vs -> ok_x vs /\ T_x vs = T_x (concat ls).
  Proof.
    intros Nn (N & bs & E & G). destruct (Nn eq_refl) as [Nf _]. clear Nn. rename Nf into Nn. rewrite mapo_concat in E. destruct (mapo (mapo pick) ls) as [bss|] eqn:Eb; [|discriminate].
    cbn in E. injection E as <-. split.
    - clear N. revert bss Eb G. induction Nn as [|l ls Hl Nn IH]; intros bss Eb G; [constructor|]. cbn [mapo] in Eb.
      destruct (mapo pick l) as [b|] eqn:E; [|discriminate]. destruct (mapo (mapo pick) ls) as [bss'|]; [|discriminate]. injection Eb as <-.
      cbn [concat] in G. apply Forall_app in G. constructor; [split; [exact Hl|exists b; tauto]|]. exact (IH bss' eq_refl (proj2 G)).
    - intros vs Ev. assert (Q : exists ms, mapo (fold1 f) bss = Some ms /\ vs = map emb ms /\ Forall (fun p => p <> []) bss).
      { clear N G. revert bss vs Eb Ev. induction Nn as [|l ls Hl Nn IH]; intros bss vs Eb Ev; cbn [mapo] in *.
        - injection Eb as <-. injection Ev as <-. exists []. repeat constructor.
        - unfold T_x in Ev at 1. destruct (mapo pick l) as [b|] eqn:E; [|discriminate]. destruct (mapo (mapo pick) ls) as [bss'|]; [|discriminate].
          injection Eb as <-. cbn [obind] in Ev. pose proof (picked _ _ E Hl) as Nb. destruct (fold1_some f b Nb) as [a Ea]. rewrite Ea in Ev. cbn in Ev.
          destruct (mapo T_x ls) as [vs'|] eqn:Evs; [|discriminate]. injection Ev as <-. destruct (IH bss' vs' eq_refl eq_refl) as (ms & E1 & -> & F1).
          exists (a :: ms). cbn [mapo]. rewrite Ea, E1. split; [reflexivity|]. split; [reflexivity|]. constructor; assumption. }
      destruct Q as (ms & Em & -> & Fb).
      assert (Ep : mapo pick (map emb ms) = Some ms).
      { rewrite mapo_map. clear -PE. induction ms as [|b ms IH]; [reflexivity|]. cbn [mapo map]. rewrite PE, IH. reflexivity. }
      split.
      + split.
        * intros C. apply map_eq_nil in C. subst ms. apply mapo_length in Em. destruct bss; [|discriminate].
          apply mapo_length in Eb. destruct ls; [|discriminate]. apply N. reflexivity.
        * exists ms. split; [exact Ep|]. clear -Em G Sel. revert ms Em. induction bss as [|b bss IH]; intros ms Em; cbn [mapo] in Em; [injection Em as <-; constructor|].
          destruct (fold1 f b) as [a|] eqn:Ea; [|discriminate]. destruct (mapo (fold1 f) bss) as [ms'|]; [|discriminate]. injection Em as <-.
          cbn [concat] in G. apply Forall_app in G. destruct G as [G1 G2]. constructor; [|exact (IH G2 ms' eq_refl)].
          rewrite Forall_forall in G1. apply G1. exact (fold1_in f Sel b a Ea).
      + unfold T_x. rewrite Ep, mapo_concat, Eb. cbn [obind option_map]. rewrite (fold1_concat f Assoc Comm bss ms Fb Em). reflexivity.
  Qed.
  Lemma x_H4 v : ok_x [v] -> T_x [v] = Some v.
  Proof.
    intros (_ & bs & E & _). unfold T_x. cbn in E |- *. destruct (pick v) as [b|] eqn:Ev; [|discriminate]. cbn. rewrite (EP v b Ev). reflexivity.
  Qed.
End Extremum.
