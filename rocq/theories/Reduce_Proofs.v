(** Reductions along one axis after the other combine the groups ONNX names. *)
From Coq Require Import Lia ZifyBool ZifyNat ZifyN Permutation.
From Verif Require Import Tensor_Proofs ShapeOps_Proofs RankOps_Proofs Index_Proofs TensorRun_Proofs.
From Verif Require Import Reduce_Spec Reduce_Model.
Import Tensor_Spec BinOps_Spec RankOps_Spec ShapeRun_Spec TensorRun_Spec.
Local Open Scope N_scope.

(** ** Lists *)
Lemma mapo_concat {A B} (f : A -> option B) : forall ls, mapo f (concat ls) = option_map (@concat B) (mapo (mapo f) ls).
Proof.
  assert (App : forall l l', mapo f (l ++ l') = match mapo f l, mapo f l' with Some a, Some b => Some (a ++ b) | _, _ => None end).
  { intros l l'. induction l as [|x l IH]; cbn [mapo app]; [destruct (mapo f l'); reflexivity|].
    rewrite IH. destruct (f x), (mapo f l), (mapo f l'); reflexivity. }
  intros ls. induction ls as [|l ls IH]; cbn [concat mapo]; [reflexivity|]. rewrite App, IH.
  destruct (mapo f l), (mapo (mapo f) ls); reflexivity.
Qed.
Lemma mapo_perm {A B} (f : A -> option B) l l' : Permutation l l' -> forall r, mapo f l = Some r -> exists r', mapo f l' = Some r' /\ Permutation r r'.
Proof.
  induction 1 as [|x l l' H IH|x y l|l l' l'' H1 IH1 H2 IH2]; intros r E.
  - exists r. split; [exact E|apply Permutation_refl].
  - cbn [mapo] in *. destruct (f x) as [b|]; [|discriminate]. destruct (mapo f l) as [r0|]; [|discriminate]. injection E as <-.
    destruct (IH _ eq_refl) as (r' & -> & P). eexists. split; [reflexivity|constructor; exact P].
  - cbn [mapo] in *. destruct (f x), (f y); try discriminate; destruct (mapo f l); try discriminate. injection E as <-.
    eexists. split; [reflexivity|constructor].
  - destruct (IH1 _ E) as (r1 & E1 & P1). destruct (IH2 _ E1) as (r2 & E2 & P2). exists r2. split; [exact E2|exact (Permutation_trans P1 P2)].
Qed.
Lemma put_in {B} (i : B) (G : N -> list B) k0 : forall ks, NoDup ks -> In k0 ks ->
  Permutation (i :: concat (map G ks)) (concat (map (fun k => if k0 =? k then i :: G k else G k) ks)).
Proof.
  induction ks as [|k ks IH]; intros D I; [destruct I|]. inversion D as [|? ? Hk D']; subst. cbn [map concat].
  destruct (N.eqb_spec k0 k) as [<-|E].
  - cbn [app]. constructor. apply Permutation_app_head. apply Permutation_refl'. f_equal. apply map_ext_in. intros y Hy.
    destruct (N.eqb_spec k0 y) as [<-|]; [contradiction|reflexivity].
  - destruct I as [->|I]; [contradiction|]. transitivity (G k ++ i :: concat (map G ks)); [apply Permutation_middle|]. apply Permutation_app_head, IH; assumption.
Qed.
Lemma upto_NoDup n : NoDup (upto n).
Proof. unfold upto. apply FinFun.Injective_map_NoDup; [intros a b H; lia|apply seq_NoDup]. Qed.
Lemma buckets {B} (P : B -> bool) (f : B -> N) n : forall l, Forall (fun i => f i < n) l ->
  Permutation (filter P l) (concat (map (fun k => filter (fun i => P i && (f i =? k)) l) (upto n))).
Proof.
  induction l as [|i l IH]; intros H.
  - cbn [filter]. apply Permutation_refl'. induction (upto n) as [|k ks IHk]; [reflexivity|cbn; exact IHk].
  - inversion H as [|? ? Hi H']; subst. cbn [filter]. destruct (P i) eqn:E.
    + cbn [andb]. transitivity (i :: concat (map (fun k => filter (fun i => P i && (f i =? k)) l) (upto n))); [constructor; exact (IH H')|].
      apply (put_in i (fun k => filter (fun i => P i && (f i =? k)) l) (f i)); [apply upto_NoDup|apply upto_In; exact Hi].
    + cbn [andb]. exact (IH H').
Qed.
Lemma filter_ext_on {A} (f g : A -> bool) l : (forall x, In x l -> f x = g x) -> filter f l = filter g l.
Proof.
  induction l as [|x l IH]; intros H; [reflexivity|]. cbn [filter]. rewrite (H x) by (left; reflexivity).
  rewrite IH by (intros y Hy; apply H; right; exact Hy). reflexivity.
Qed.
Lemma filter_one {A} (f : A -> bool) j : forall l, NoDup l -> In j l -> (forall i, In i l -> (f i = true <-> i = j)) -> filter f l = [j].
Proof.
  induction l as [|x l IH]; intros D I H; [destruct I|]. inversion D as [|? ? Hx D']; subst. cbn [filter].
  destruct (f x) eqn:E.
  - apply (proj1 (H x (or_introl eq_refl))) in E. subst x. f_equal. rewrite <- (filter_ext_on (fun _ => false)); [clear; induction l; [reflexivity|cbn; assumption]|].
    intros y Hy. destruct (f y) eqn:Ey; [|reflexivity]. apply (proj1 (H y (or_intror Hy))) in Ey. subst y. contradiction.
  - destruct I as [->|I]; [rewrite (proj2 (H j (or_introl eq_refl)) eq_refl) in E; discriminate|]. apply IH; [exact D'|exact I|]. intros i Hi. apply H. right. exact Hi.
Qed.

(** ** Shapes with some axes of size one *)
Fixpoint kdims (h : nat -> bool) (i : nat) (s : list N) : list N :=
  match s with [] => [] | d :: r => (if h i then 1 else d) :: kdims h (S i) r end.
Lemma kdims_length h : forall s i, length (kdims h i s) = length s.
Proof. induction s as [|d s IH]; intros i; [reflexivity|cbn; rewrite IH; reflexivity]. Qed.
Lemma kdims_nth h : forall s i k, nth_error (kdims h i s) k = option_map (fun d => if h (i + k)%nat then 1 else d) (nth_error s k).
Proof.
  induction s as [|d s IH]; intros i k; destruct k as [|k]; cbn [kdims nth_error option_map]; try reflexivity.
  - rewrite Nat.add_0_r. reflexivity.
  - rewrite IH. replace (i + Datatypes.S k)%nat with (Datatypes.S i + k)%nat by lia. reflexivity.
Qed.
Lemma kdims_ext h g s i : (forall k, (k < length s)%nat -> h (i + k)%nat = g (i + k)%nat) -> kdims h i s = kdims g i s.
Proof.
  intros H. apply nth_error_ext. intros k. rewrite !kdims_nth. destruct (nth_error s k) eqn:E; [|reflexivity].
  cbn. rewrite H; [reflexivity|]. apply nth_error_Some. congruence.
Qed.
Lemma kdims_none s i : kdims (fun _ => false) i s = s.
Proof. apply nth_error_ext. intros k. rewrite kdims_nth. destruct (nth_error s k); reflexivity. Qed.
Lemma valid_nth s : forall idx, valid_idx s idx <-> length idx = length s /\ forall k d, nth_error s k = Some d -> nth k idx 0 < d.
Proof.
  induction s as [|d s IH]; intros idx.
  - split; [intros H; inversion H; subst; split; [reflexivity|intros [|k] d E; discriminate]|]. intros [L _]. destruct idx; [constructor|discriminate].
  - destruct idx as [|i idx]; [split; [intros H; inversion H|intros [L _]; discriminate]|]. split.
    + intros H. inversion H as [|? ? ? ? Hi Hr]; subst. apply IH in Hr. destruct Hr as [L Hr]. split; [cbn; lia|].
      intros [|k] e E; cbn in *; [injection E as <-; exact Hi|exact (Hr _ _ E)].
    + intros [L H]. constructor; [exact (H 0%nat d eq_refl)|]. apply IH. split; [cbn in L; lia|]. intros k e E. exact (H (Datatypes.S k) e E).
Qed.
Lemma prod_pos s : prodN s <> 0 -> forall k d, nth_error s k = Some d -> 1 <= d.
Proof.
  induction s as [|e s IH]; intros H k d E; [destruct k; discriminate|]. cbn [prodN] in H.
  destruct k as [|k]; cbn in E; [injection E as <-; destruct (N.eq_dec e 0); [subst; lia|lia]|]. apply (IH ltac:(intros C; rewrite C in H; lia) k d E).
Qed.
Lemma kdims_valid h s j : prodN s <> 0 -> valid_idx (kdims h 0 s) j -> valid_idx s j.
Proof.
  intros P V. apply valid_nth in V. apply valid_nth. rewrite kdims_length in V. destruct V as [L V]. split; [exact L|].
  intros k d E. specialize (V k (if h k then 1 else d)). rewrite kdims_nth, E in V. specialize (V eq_refl).
  pose proof (prod_pos s P k d E). destruct (h k); lia.
Qed.

Lemma agree_ext h g r i j : (forall k, (k < r)%nat -> h k = g k) -> agree h r i j = agree g r i j.
Proof.
  intros H. unfold agree. assert (G : forall l, (forall k, In k l -> (k < r)%nat) ->
     forallb (fun k => h k || (nth k i 0 =? nth k j 0)) l = forallb (fun k => g k || (nth k i 0 =? nth k j 0)) l).
  { induction l as [|k l IH]; intros Hl; [reflexivity|]. cbn [forallb]. rewrite H by (apply Hl; left; reflexivity).
    rewrite IH by (intros y Hy; apply Hl; right; exact Hy). reflexivity. }
  apply G. intros k Hk. apply in_seq in Hk. lia.
Qed.
Lemma group_ext h g s j : (forall k, (k < length s)%nat -> h k = g k) -> group h s j = group g s j.
Proof. intros H. apply filter_ext_on. intros i _. apply agree_ext. exact H. Qed.
Lemma agree_spec h r i j : agree h r i j = true <-> forall k, (k < r)%nat -> h k = false -> nth k i 0 = nth k j 0.
Proof.
  unfold agree. rewrite forallb_forall. split.
  - intros H k Hk Hh. specialize (H k ltac:(apply in_seq; lia)). rewrite Hh in H. cbn in H. lia.
  - intros H k Hk. apply in_seq in Hk. destruct (h k) eqn:E; [reflexivity|]. rewrite (H k ltac:(lia) E). cbn. apply N.eqb_refl.
Qed.
Lemma nth_at_axis a k l m : (a < length l)%nat -> nth m (at_axis a k l) 0 = if Nat.eqb m a then k else nth m l 0.
Proof.
  intros L. unfold at_axis. destruct (Nat.eqb_spec m a) as [->|E].
  - rewrite app_nth2 by (rewrite firstn_length; lia). rewrite firstn_length, Nat.min_l by lia. rewrite Nat.sub_diag. reflexivity.
  - destruct (Nat.lt_ge_cases m a) as [Lt|Ge].
    + rewrite app_nth1 by (rewrite firstn_length; lia). rewrite <- (firstn_skipn a l) at 2.
      rewrite app_nth1 by (rewrite firstn_length; lia). reflexivity.
    + rewrite app_nth2 by (rewrite firstn_length; lia). rewrite firstn_length, Nat.min_l by lia.
      rewrite app_nth2 by (cbn; lia). cbn [length]. replace (m - a - 1)%nat with (m - Datatypes.S a)%nat by lia.
      rewrite <- (firstn_skipn (Datatypes.S a) l) at 2. rewrite app_nth2 by (rewrite firstn_length; lia). rewrite firstn_length, Nat.min_l by lia. reflexivity.
Qed.
Lemma at_axis_length a k l : (a < length l)%nat -> length (at_axis a k l) = length l.
Proof. intros L. unfold at_axis. rewrite !app_length, firstn_length, skipn_length. cbn. lia. Qed.
Lemma nth_error_at_axis a k l m : (a < length l)%nat -> nth_error (at_axis a k l) m = if Nat.eqb m a then Some k else nth_error l m.
Proof.
  intros L. destruct (Nat.lt_ge_cases m (length l)) as [Lm|Lm].
  - rewrite (nth_error_nth' _ 0) by (rewrite at_axis_length by exact L; exact Lm). rewrite nth_at_axis by exact L.
    destruct (Nat.eqb m a); [reflexivity|]. rewrite (nth_error_nth' _ 0) by exact Lm. reflexivity.
  - rewrite (proj2 (nth_error_None _ _)) by (rewrite at_axis_length; assumption). destruct (Nat.eqb_spec m a); [lia|]. symmetry. apply nth_error_None. exact Lm.
Qed.

(** Groups of one kind have one size. *)
Lemma map_NoDup_in {A B} (f : A -> B) l : (forall a b, In a l -> In b l -> f a = f b -> a = b) -> NoDup l -> NoDup (map f l).
Proof.
  induction l as [|a l IH]; intros H N; cbn [map]; constructor; inversion N as [|? ? Na N']; subst.
  - intros I. apply in_map_iff in I. destruct I as (b & E & I). apply Na. rewrite <- (H b a); [exact I|right; exact I|left; reflexivity|exact E].
  - apply IH; [|exact N']. intros b c Hb Hc. apply H; right; assumption.
Qed.
Definition mix (h : nat -> bool) (s j i : list N) : list N := map (fun k => if h k then nth k i 0 else nth k j 0) (seq 0 (length s)).
Lemma mix_nth h s j i k : (k < length s)%nat -> nth k (mix h s j i) 0 = if h k then nth k i 0 else nth k j 0.
Proof.
  intros L. unfold mix. rewrite (nth_indep _ 0 ((fun k => if h k then nth k i 0 else nth k j 0) 0%nat)) by (rewrite map_length, seq_length; exact L).
  rewrite (map_nth (fun k => if h k then nth k i 0 else nth k j 0)), seq_nth by exact L. reflexivity.
Qed.
Lemma group_le h s j j' : valid_idx s j' -> (length (group h s j) <= length (group h s j'))%nat.
Proof.
  intros V'. rewrite <- (map_length (mix h s j')). apply NoDup_incl_length.
  - apply map_NoDup_in; [|apply NoDup_filter, indices_NoDup]. intros i i' Hi Hi' E. unfold group in Hi, Hi'. apply filter_In in Hi, Hi'. destruct Hi as [Vi Ai], Hi' as [Vi' Ai'].
    apply indices_In in Vi, Vi'. pose proof (valid_length _ _ Vi) as L. pose proof (valid_length _ _ Vi') as L'. apply (nth_ext _ _ 0 0); [congruence|]. intros k Hk.
    pose proof (f_equal (fun l => nth k l 0) E) as Ek. cbv beta in Ek. rewrite !mix_nth in Ek by lia. rewrite agree_spec in Ai, Ai'.
    destruct (h k) eqn:Eh; [exact Ek|]. rewrite (Ai k), (Ai' k) by (assumption || lia). reflexivity.
  - intros q Hq. apply in_map_iff in Hq. destruct Hq as (i & <- & Hi). unfold group in *. apply filter_In in Hi. destruct Hi as [Vi Ai]. apply indices_In in Vi. apply filter_In. split.
    + apply indices_In. apply valid_nth. split; [unfold mix; rewrite map_length, seq_length; reflexivity|]. intros k d E. assert (L : (k < length s)%nat) by (apply nth_error_Some; congruence).
      rewrite mix_nth by exact L. apply valid_nth in Vi, V'. destruct (h k); [apply (proj2 Vi)|apply (proj2 V')]; exact E.
    + apply agree_spec. intros k Hk Eh. rewrite mix_nth by exact Hk. rewrite Eh. reflexivity.
Qed.
Lemma group_length h s j j' : valid_idx s j -> valid_idx s j' -> length (group h s j) = length (group h s j').
Proof. intros V V'. apply Nat.le_antisymm; apply group_le; assumption. Qed.
Definition even {A} (ls : list (list A)) : Prop := Forall (fun p => p <> []) ls /\ exists c, Forall (fun p => length p = c) ls.

(** ** One axis after the other *)
Definition hD (D : list nat) (k : nat) : bool := existsb (Nat.eqb k) D.
Lemma hD_cons a D k : hD (a :: D) k = Nat.eqb k a || hD D k. Proof. reflexivity. Qed.
Lemma hD_In D k : hD D k = true <-> In k D.
Proof. unfold hD. rewrite existsb_exists. split; [intros (y & Hy & E); apply Nat.eqb_eq in E; subst; exact Hy|intros H; exists k; split; [exact H|apply Nat.eqb_refl]]. Qed.

Section Chain.
  Context {A : Type}.
  Variable alg : algebra A.
  Variable m : meth.
  Variable T : list A -> option A.
  Variable ok : list A -> Prop.
  Variable ne : bool.
  Hypothesis H1 : forall l, ok l -> fold_of alg m l = T l /\ T l <> None.
  Hypothesis H2 : forall l l', Permutation l l' -> ok l -> ok l' /\ T l = T l'.
  Hypothesis H3 : forall ls, (ne = true -> even ls) -> ok (concat ls) ->
    Forall ok ls /\ forall vs, mapo T ls = Some vs -> ok vs /\ T vs = T (concat ls).
  Hypothesis H4 : forall v, ok [v] -> T [v] = Some v.
  Variable x : tensor A.
  Hypothesis W : twf x.
  Hypothesis Hne : ne = true -> prodN (tshape x) <> 0.
  Let s := tshape x.

  Definition total_at (h : nat -> bool) (j : list N) : option A := obind (mapo (get x) (group h s j)) T.
  Definition state (h : nat -> bool) : option (tensor A) := tab (kdims h 0 s) (total_at h).
  Definition allok (h : nat -> bool) : Prop := forall j, valid_idx (kdims h 0 s) j -> forall l, mapo (get x) (group h s j) = Some l -> ok l.

  Lemma got l : (forall i, In i l -> valid_idx s i) -> exists r, mapo (get x) l = Some r.
  Proof.
    intros H. induction l as [|i l IH]; [exists []; reflexivity|]. destruct (get_valid x i W (H i (or_introl eq_refl))) as (v & E & _).
    destruct IH as [r Er]; [intros y Hy; apply H; right; exact Hy|]. exists (v :: r). cbn [mapo]. rewrite E, Er. reflexivity.
  Qed.
  Lemma group_in h j i : In i (group h s j) -> valid_idx s i.
  Proof. unfold group. intros H. apply filter_In in H. apply indices_In. exact (proj1 H). Qed.
  Lemma group_got h j : exists r, mapo (get x) (group h s j) = Some r.
  Proof. apply got. intros i. apply group_in. Qed.
  Lemma state_some h : allok h -> exists y, state h = Some y /\ twf y /\ tshape y = kdims h 0 s.
  Proof.
    intros O. unfold state. destruct (tab_Some (kdims h 0 s) (total_at h)) as [y Hy].
    - intros j V. destruct (group_got h j) as [r Er]. unfold total_at. rewrite Er. cbn [obind].
      destruct (H1 r (O j V r Er)) as [_ N]. destruct (T r) as [v|]; [exists v; reflexivity|contradiction].
    - exists y. split; [exact Hy|]. exact (tab_wf _ _ _ Hy).
  Qed.
  Lemma state_nil y : allok (hD []) -> state (hD []) = Some y -> y = x.
  Proof.
    intros O. unfold state. change (hD []) with (fun _ : nat => false) in *. unfold allok in O. rewrite kdims_none in *.
    rewrite (tab_ext _ _ (get x)).
    - unfold s. rewrite (tab_get x W). intros E. injection E as <-. reflexivity.
    - intros j V. assert (E : group (fun _ => false) s j = [j]).
      { unfold group. apply filter_one; [apply indices_NoDup|apply indices_In; exact V|]. intros i Hi. apply indices_In in Hi.
        pose proof (valid_length _ _ V) as Lj. pose proof (valid_length _ _ Hi) as Li. rewrite agree_spec. split; [|intros ->; reflexivity].
        intros H. apply (nth_ext _ _ 0 0); [congruence|]. intros k Hk. apply H; [congruence|reflexivity]. }
      specialize (O j V). unfold total_at. rewrite E in *. destruct (get_valid x j W V) as (v & Ev & _). cbn [mapo] in *. rewrite Ev in *. cbn [obind].
      rewrite (H4 v (O [v] eq_refl)). reflexivity.
  Qed.

  Section Step.
    Variable a : nat.
    Variable D : list nat.
    Hypothesis La : (a < length s)%nat.
    Hypothesis Fresh : ~ In a D.
    Let n := nth a s 0.
    Lemma fresh : hD D a = false. Proof. destruct (hD D a) eqn:E; [|reflexivity]. apply hD_In in E. contradiction. Qed.
    Lemma kdims_step : at_axis a 1 (kdims (hD D) 0 s) = kdims (hD (a :: D)) 0 s.
    Proof.
      apply nth_error_ext. intros k. rewrite nth_error_at_axis by (rewrite kdims_length; exact La). rewrite !kdims_nth. cbn [Nat.add].
      rewrite hD_cons. destruct (Nat.eqb_spec k a) as [->|E]; [|reflexivity]. cbn [orb]. rewrite (nth_error_nth' _ 0) by exact La. reflexivity.
    Qed.
    Lemma kdims_at : nth a (kdims (hD D) 0 s) 0 = n.
    Proof.
      apply nth_error_nth. rewrite kdims_nth. cbn [Nat.add]. rewrite fresh. rewrite (nth_error_nth' _ 0) by exact La. reflexivity.
    Qed.
    Lemma valid_step j k : valid_idx (kdims (hD (a :: D)) 0 s) j -> k < n -> valid_idx (kdims (hD D) 0 s) (at_axis a k j).
    Proof.
      intros V Hk. pose proof (valid_length _ _ V) as Lj. rewrite kdims_length in Lj. apply valid_nth in V. apply valid_nth.
      split; [rewrite at_axis_length by lia; rewrite kdims_length; exact Lj|]. intros i d E. rewrite nth_at_axis by lia.
      rewrite kdims_nth in E. cbn [Nat.add] in E. destruct (Nat.eqb_spec i a) as [->|Ei].
      - rewrite fresh in E. rewrite (nth_error_nth' s 0 La) in E. cbn in E. injection E as <-. exact Hk.
      - apply (proj2 V). rewrite kdims_nth. cbn [Nat.add]. rewrite hD_cons. destruct (Nat.eqb_spec i a); [contradiction|]. exact E.
    Qed.
    Lemma group_step j : valid_idx (kdims (hD (a :: D)) 0 s) j ->
      Permutation (group (hD (a :: D)) s j) (concat (map (fun k => group (hD D) s (at_axis a k j)) (upto n))).
    Proof.
      intros V. pose proof (valid_length _ _ V) as Lj. rewrite kdims_length in Lj.
      transitivity (concat (map (fun k => filter (fun i => agree (hD (a :: D)) (length s) i j && (nth a i 0 =? k)) (indices s)) (upto n))).
      - apply (buckets (fun i => agree (hD (a :: D)) (length s) i j) (fun i => nth a i 0)). apply Forall_forall. intros i Hi. apply indices_In in Hi.
        apply valid_nth in Hi. apply (proj2 Hi). apply nth_error_nth'. exact La.
      - apply Permutation_refl'. f_equal. apply map_ext_in. intros k Hk. apply filter_ext_on. intros i Hi.
        apply Bool.eq_true_iff_eq. rewrite andb_true_iff, !agree_spec, N.eqb_eq. split.
        + intros [Ha Hb] p Hp Hq. rewrite nth_at_axis by lia. destruct (Nat.eqb_spec p a) as [->|Ep]; [exact Hb|]. apply Ha; [exact Hp|].
          rewrite hD_cons. destruct (Nat.eqb_spec p a); [contradiction|]. exact Hq.
        + intros Ha. split.
          * intros p Hp Hq. rewrite hD_cons in Hq. apply orb_false_iff in Hq. destruct Hq as [Hq1 Hq2]. rewrite (Ha p Hp Hq2), nth_at_axis by lia.
            rewrite Hq1. reflexivity.
          * rewrite (Ha a La fresh), nth_at_axis by lia. rewrite Nat.eqb_refl. reflexivity.
    Qed.
    (** The groups of the parts, as lists of elements. *)
    Lemma parts j : valid_idx (kdims (hD (a :: D)) 0 s) j -> allok (hD (a :: D)) ->
      exists ls r, mapo (fun k => mapo (get x) (group (hD D) s (at_axis a k j))) (upto n) = Some ls /\
        mapo (get x) (group (hD (a :: D)) s j) = Some r /\ Permutation r (concat ls) /\ ok (concat ls) /\ (ne = true -> even ls).
    Proof.
      intros V O. destruct (group_got (hD (a :: D)) j) as [r Er].
      destruct (mapo_perm (get x) _ _ (group_step j V) r Er) as (r' & Er' & P). rewrite mapo_concat, mapo_map in Er'.
      destruct (mapo _ (upto n)) as [ls|] eqn:Els; [|discriminate]. cbn in Er'. injection Er' as <-.
      exists ls, r. split; [reflexivity|]. split; [exact Er|]. split; [exact P|]. split; [exact (proj1 (H2 _ _ P (O j V r Er)))|].
      intros Ene.
      assert (Vk : forall p, In p ls -> exists i, valid_idx s i /\ mapo (get x) (group (hD D) s i) = Some p).
      { intros p Hp. destruct (mapo_In_rev _ _ _ _ Els Hp) as (k & Hk & E). exists (at_axis a k j). split; [|exact E].
        apply (kdims_valid (hD D)); [exact (Hne Ene)|]. apply valid_step; [exact V|]. apply upto_In. exact Hk. }
      split.
      - apply Forall_forall. intros p Hp Ep. destruct (Vk p Hp) as (i & Vi & E). rewrite Ep in E. apply mapo_length in E.
        assert (I : In i (group (hD D) s i)) by (unfold group; apply filter_In; split; [apply indices_In; exact Vi|apply agree_spec; reflexivity]).
        destruct (group (hD D) s i); [destruct I|discriminate].
      - destruct ls as [|p0 ls0]; [exists 0%nat; constructor|]. exists (length p0). apply Forall_forall. intros p Hp.
        destruct (Vk p Hp) as (i & Vi & E). destruct (Vk p0 (or_introl eq_refl)) as (i0 & Vi0 & E0). apply mapo_length in E, E0. rewrite E, E0. apply group_length; assumption.
    Qed.
    Lemma allok_step : allok (hD (a :: D)) -> allok (hD D).
    Proof.
      intros O j V l El. pose proof (valid_length _ _ V) as Lj. rewrite kdims_length in Lj. apply valid_nth in V. destruct V as [_ V].
      assert (V' : valid_idx (kdims (hD (a :: D)) 0 s) (at_axis a 0 j)).
      { apply valid_nth. rewrite at_axis_length, kdims_length by lia. split; [exact Lj|]. intros k d E. rewrite nth_at_axis by lia.
        rewrite kdims_nth in E. cbn [Nat.add] in E. rewrite hD_cons in E. destruct (Nat.eqb_spec k a) as [->|Ek].
        - cbn [orb] in E. rewrite (nth_error_nth' s 0 La) in E. cbn in E. injection E as <-. lia.
        - cbn [orb] in E. apply V. rewrite kdims_nth. exact E. }
      destruct (parts _ V' O) as (ls & r & Els & _ & _ & Oc & Nn). destruct (H3 ls Nn Oc) as [Fo _]. rewrite Forall_forall in Fo. apply Fo.
      assert (Hk : nth a j 0 < n).
      { apply V. rewrite kdims_nth. cbn [Nat.add]. rewrite fresh, (nth_error_nth' s 0 La). reflexivity. }
      apply (nth_error_In _ (N.to_nat (nth a j 0))). rewrite (mapo_nth _ _ _ _ _ Els (upto_nth n (N.to_nat (nth a j 0)) ltac:(lia))). rewrite N2Nat.id.
      rewrite <- El. f_equal. f_equal. apply (nth_ext _ _ 0 0); [rewrite !at_axis_length by (rewrite ?at_axis_length; lia); reflexivity|].
      intros k Hk'. rewrite !nth_at_axis by (rewrite ?at_axis_length; lia). destruct (Nat.eqb_spec k a) as [->|]; reflexivity.
    Qed.
    Lemma dim_step y : allok (hD (a :: D)) -> state (hD D) = Some y -> b_dim alg m (N.of_nat a) y = state (hD (a :: D)).
    Proof.
      intros O Hy. unfold state in Hy. destruct (tab_wf _ _ _ Hy) as [Wy Sy]. unfold b_dim. rewrite Nat2N.id, Sy, kdims_length.
      destruct (Nat.ltb_spec a (length s)) as [_|C]; [|lia]. rewrite kdims_at.
      change (firstn a (kdims (hD D) 0 s) ++ 1 :: skipn (Datatypes.S a) (kdims (hD D) 0 s)) with (at_axis a 1 (kdims (hD D) 0 s)).
      rewrite kdims_step. unfold state. apply tab_ext. intros j V. destruct (parts j V O) as (ls & r & Els & Er & P & Oc & Nn).
      unfold total_at. rewrite Er. cbn [obind]. destruct (H3 ls Nn Oc) as [Fo Vs].
      assert (E : mapo (fun k => get y (at_axis a k j)) (upto n) = mapo T ls).
      { rewrite (mapo_ext _ (fun k => obind (mapo (get x) (group (hD D) s (at_axis a k j))) T)).
        - clear -Els. revert ls Els. induction (upto n) as [|k ks IH]; intros ls Els; cbn [mapo] in *; [injection Els as <-; reflexivity|].
          destruct (mapo (get x) _) as [p|]; [|discriminate]. destruct (mapo _ ks) as [ps|]; [|discriminate]. injection Els as <-. cbn [mapo obind].
          rewrite (IH ps eq_refl). reflexivity.
        - intros k Hk. apply upto_In in Hk. apply (get_tab _ _ _ _ Hy). apply valid_step; assumption. }
      change (fun k => get y (firstn a j ++ k :: skipn (Datatypes.S a) j)) with (fun k => get y (at_axis a k j)). rewrite E.
      destruct (mapo T ls) as [vs|] eqn:Ev.
      - destruct (Vs vs eq_refl) as [Ov Tv]. cbn [obind]. rewrite (proj1 (H1 vs Ov)), Tv. symmetry. exact (proj2 (H2 _ _ P (O j V r Er))).
      - exfalso. clear -Fo Ev H1. revert Ev. induction Fo as [|p ls Hp Fo IH]; [discriminate|]. cbn [mapo].
        destruct (H1 p Hp) as [_ N]. destruct (T p); [|contradiction]. destruct (mapo T ls); [discriminate|exact IH].
    Qed.
  End Step.

  Lemma chain : forall dims D, NoDup (rev dims ++ D) -> (forall a, In a dims -> (a < length s)%nat) -> allok (hD (rev dims ++ D)) ->
    fold_left (fun o d => obind o (b_dim alg m (N.of_nat d))) dims (state (hD D)) = state (hD (rev dims ++ D)).
  Proof.
    induction dims as [|a dims IH]; intros D ND L O; [reflexivity|]. cbn [rev] in *. rewrite <- app_assoc in *. cbn [app] in *.
    assert (Fr : ~ In a D).
    { intros I. apply NoDup_remove_2 in ND. apply ND. apply in_or_app. right. exact I. }
    assert (O' : allok (hD (a :: D))).
    { clear IH. assert (G : forall l, NoDup (l ++ a :: D) -> (forall b, In b l -> (b < length s)%nat) -> allok (hD (l ++ a :: D)) -> allok (hD (a :: D))).
      { induction l as [|b l IHl]; intros N1 L1 O1; [exact O1|]. cbn [app] in *. inversion N1 as [|? ? Nb N1']; subst.
        apply IHl; [exact N1'|intros c Hc; apply L1; right; exact Hc|]. apply (allok_step b); [apply L1; left; reflexivity|exact Nb|exact O1]. }
      apply (G (rev dims)); [exact ND| |exact O]. intros b Hb. apply L. right. apply in_rev. exact Hb. }
    cbn [fold_left]. assert (O'' : allok (hD D)) by (apply (allok_step a); [apply L; left; reflexivity|exact Fr|exact O']).
    destruct (state_some _ O'') as (y & Hy & _). rewrite Hy. cbn [obind].
    rewrite (dim_step a D (L a (or_introl eq_refl)) Fr y O' Hy). apply IH; [exact ND| |exact O]. intros b Hb. apply L. right. exact Hb.
  Qed.
  Lemma chain_all dims : NoDup dims -> (forall a, In a dims -> (a < length s)%nat) -> allok (hD dims) ->
    fold_left (fun o d => obind o (b_dim alg m (N.of_nat d))) dims (Some x) = state (hD dims).
  Proof.
    intros ND L O. assert (E : forall k, hD (rev dims) k = hD dims k).
    { intros k. apply Bool.eq_true_iff_eq. rewrite !hD_In. symmetry. apply in_rev. }
    assert (O' : allok (hD (rev dims))).
    { intros j V l El. rewrite (kdims_ext _ (hD dims)) in V by (intros; apply E). rewrite (group_ext _ (hD dims)) in El by (intros; apply E). exact (O j V l El). }
    assert (Q : state (hD (rev dims)) = state (hD dims)).
    { unfold state. rewrite (kdims_ext _ (hD dims)) by (intros; apply E). apply tab_ext. intros j _. unfold total_at. rewrite (group_ext _ (hD dims)) by (intros; apply E). reflexivity. }
    assert (On : allok (hD [])).
    { assert (G : forall l, NoDup l -> (forall b, In b l -> (b < length s)%nat) -> allok (hD l) -> allok (hD [])).
      { induction l as [|b l IHl]; intros N1 L1 O1; [exact O1|]. inversion N1 as [|? ? Nb N1']; subst.
        apply IHl; [exact N1'|intros c Hc; apply L1; right; exact Hc|]. apply (allok_step b); [apply L1; left; reflexivity|exact Nb|exact O1]. }
      exact (G dims ND L O). }
    destruct (state_some _ On) as (y & Hy & _). pose proof (state_nil y On Hy) as Ey. rewrite Ey in Hy.
    pose proof (chain dims []) as C. rewrite app_nil_r in C. rewrite Hy in C. rewrite C; [exact Q|apply NoDup_rev; exact ND|exact L|exact O'].
  Qed.

  (** All elements at once. *)
  Lemma all_at_once v : ok (tdata x) -> T (tdata x) = Some v -> b_all alg m x = Some (mkT [1] [v]).
  Proof. intros O E. unfold b_all. rewrite (proj1 (H1 _ O)), E. reflexivity. Qed.
  Lemma group_all j : mapo (get x) (group (fun _ => true) s j) = Some (tdata x).
  Proof.
    replace (group (fun _ => true) s j) with (indices s).
    - pose proof (tab_get x W) as E. unfold tab in E. fold s in E. destruct (mapo (get x) (indices s)) as [l|]; [|discriminate]. exact (f_equal (option_map tdata) E).
    - unfold group. symmetry. apply filter_true. intros i _. unfold agree. apply forallb_forall. reflexivity.
  Qed.
End Chain.
