From Verif Require Import Util IR_Model Names_Model Names_Proofs Fields_Spec Fields_Model.
From Coq Require Import Lia.

Scheme fnode_mut := Induction for fnode Sort Prop
with fkind_mut := Induction for fkind Sort Prop
with fnodes_mut := Induction for fnodes Sort Prop.
Combined Scheme fnode_ind3 from fnode_mut, fkind_mut, fnodes_mut.

(** The snapshots are those of the fields, for every graph. *)
Lemma snapshots_same :
  (forall n c, sub_snapshots n c = sub_fields n c) /\
  (forall k c, sub_snapshots_k k c = sub_fields_k k c) /\
  (forall l c, sub_snapshots_l l c = sub_fields_l l c).
Proof.
  apply fnode_ind3.
  - intros x i p k IH c. cbn. destruct p; unfold next_name; cbn; rewrite IH; reflexivity.
  - reflexivity.
  - intros a Ha b Hb c. cbn. rewrite Ha. destruct (sub_fields_l a c) as [c1 f1]. rewrite Hb. reflexivity.
  - intros b Hb c. cbn. apply Hb.
  - reflexivity.
  - reflexivity.
  - intros n Hn l Hl c. cbn. rewrite Hn. destruct (sub_fields n c) as [c1 f1]. rewrite Hl. reflexivity.
Qed.
Lemma all_snapshots_same g : collect_all_snapshots g = collect_all_fields g.
Proof.
  unfold collect_all_snapshots, collect_all_fields. generalize ([] : counts). induction g as [|[x i p k] g IH]; intros c; [reflexivity|].
  cbn. rewrite (proj1 (proj2 snapshots_same)). destruct (sub_fields_k k c) as [c2 f2]. rewrite IH. reflexivity.
Qed.

(** As long as the names are new, nothing is renamed. *)
Definition plainly (f : counts -> counts * list (string * N)) (w : list (string * N)) : Prop :=
  forall c, NoDup (map fst w) -> (forall x, In x (map fst w) -> sget c x = None) ->
    snd (f c) = w /\ forall x, sget (fst (f c)) x = None <-> (sget c x = None /\ ~ In x (map fst w)).

Lemma nodup_app {A} (a b : list A) : NoDup (a ++ b) -> NoDup a /\ NoDup b /\ forall x, In x a -> ~ In x b.
Proof.
  induction a as [|y a IH]; intros H; [repeat split; [constructor|exact H|intros x []]|].
  inversion H as [|? ? H1 H2]; subst. destruct (IH H2) as (I1 & I2 & I3). rewrite in_app_iff in H1. repeat split.
  - constructor; tauto.
  - exact I2.
  - intros x [->|Hx]; [tauto|auto].
Qed.

Lemma plainly_app f h u v : plainly f u -> plainly h v ->
  plainly (fun c => let (c1, f1) := f c in let (c2, f2) := h c1 in (c2, f1 ++ f2)) (u ++ v).
Proof.
  intros Hf Hh c N K. rewrite map_app in N, K. destruct (nodup_app _ _ N) as (N1 & N2 & D).
  destruct (Hf c N1) as [E1 C1]; [intros; apply K, in_or_app; left; assumption|].
  destruct (f c) as [c1 f1]. cbn [fst snd] in *.
  destruct (Hh c1 N2) as [E2 C2].
  { intros x Hx. apply C1. split; [apply K, in_or_app; right; exact Hx|]. intros Hu. exact (D x Hu Hx). }
  destruct (h c1) as [c2 f2]. cbn [fst snd] in *. split; [congruence|].
  intros x. rewrite C2, C1, map_app, in_app_iff. tauto.
Qed.
Lemma plainly_ext f h u : (forall c, f c = h c) -> plainly f u -> plainly h u.
Proof. intros E H c. rewrite <- E. apply H. Qed.
Lemma plainly_nil : plainly (fun c => (c, [])) [].
Proof. intros c _ _. cbn. split; [reflexivity|]. intros x. tauto. Qed.

Lemma fields_plain :
  (forall n, no_scan n = true -> plainly (sub_fields n) (with_params n)) /\
  (forall k, no_scan_k k = true -> plainly (sub_fields_k k) (with_params_k k)) /\
  (forall l, no_scan_l l = true -> plainly (sub_fields_l l) (with_params_l l)).
Proof.
  apply fnode_ind3.
  - intros x i p k IH H. cbn in H. specialize (IH H). cbn [with_params].
    apply (plainly_ext (fun c => let (c1, f1) := (if p then let (c', y) := next_name c x in (c', [(y, i)]) else (c, [])) in let (c2, f2) := sub_fields_k k c1 in (c2, f1 ++ f2)));
      [reflexivity|].
    apply plainly_app; [|exact IH]. destruct p; [|apply plainly_nil].
    intros c _ K. assert (Hc : sget c x = None) by (apply K; left; reflexivity). unfold next_name, count_of. rewrite Hc. cbn.
    split; [reflexivity|]. intros y. destruct (String.eqb_spec x y); [split; [discriminate|tauto]|tauto].
  - intros _. exact plainly_nil.
  - intros a Ha b Hb H. cbn in H. apply andb_prop in H. destruct H as [H1 H2]. cbn [with_params_k].
    eapply plainly_ext; [|apply (plainly_app _ _ _ _ (Ha H1) (Hb H2))]. reflexivity.
  - intros b Hb H. cbn in H. exact (Hb H).
  - intros b Hb H. cbn in H. cbn [with_params_k]. destruct (with_params_l b); [|discriminate]. exact plainly_nil.
  - intros _. exact plainly_nil.
  - intros n Hn l Hl H. cbn in H. apply andb_prop in H. destruct H as [H1 H2]. cbn [with_params_l].
    eapply plainly_ext; [|apply (plainly_app _ _ _ _ (Hn H1) (Hl H2))]. reflexivity.
Qed.

(** Names of the graph's own nodes are not counted, so for them it is enough
    that the names below are new to the counters. *)
Lemma root_plain g : forallb no_scan g = true -> forall c, NoDup (map fst (nodes_with_params g)) ->
  (forall x, In x (map fst (nodes_with_params g)) -> sget c x = None) -> root_fields g c = nodes_with_params g.
Proof.
  induction g as [|[x i p k] g IH]; intros H c N K; [reflexivity|]. cbn in H. apply andb_prop in H. destruct H as [H1 H2].
  unfold nodes_with_params in *. cbn [flat_map with_params] in *. cbn [root_fields].
  rewrite <- app_assoc in *. rewrite map_app in N, K. destruct (nodup_app _ _ N) as (_ & N2 & D). rewrite map_app in N2, K, D.
  destruct (nodup_app _ _ N2) as (N3 & N4 & D2).
  destruct (proj1 (proj2 fields_plain) k H1 c N3) as [E C].
  { intros y Hy. apply K. rewrite !in_app_iff. tauto. }
  destruct (sub_fields_k k c) as [c2 f2]. cbn [fst snd] in *. rewrite E. f_equal. f_equal.
  apply IH; auto. intros y Hy. apply C. split; [apply K; rewrite !in_app_iff; tauto|]. intros Hk. exact (D2 y Hk Hy).
Qed.

Lemma fields_are_nodes g : forallb no_scan g = true -> NoDup (map fst (nodes_with_params g)) ->
  collect_all_fields g = nodes_with_params g.
Proof. intros H N. apply root_plain; auto. Qed.

Lemma nodup_fst_fun {A} (l : list (string * A)) x i j : NoDup (map fst l) -> In (x, i) l -> In (x, j) l -> i = j.
Proof.
  induction l as [|[y a] l IH]; intros N Hi Hj; [destruct Hi|]. cbn in N. inversion N as [|? ? N1 N2]; subst.
  destruct Hi as [Hi|Hi], Hj as [Hj|Hj].
  - congruence.
  - injection Hi as -> ->. exfalso. apply N1. apply (in_map fst) in Hj. exact Hj.
  - injection Hj as -> ->. exfalso. apply N1. apply (in_map fst) in Hi. exact Hi.
  - exact (IH N2 Hi Hj).
Qed.

Lemma fields_ok g : forallb no_scan g = true -> NoDup (map fst (nodes_with_params g)) ->
  ~ In "phantom"%string (map fst (nodes_with_params g)) -> ~ In "device"%string (map fst (nodes_with_params g)) ->
  struct_ok (struct_fields g) /\ refers_to_own (collect_all_fields g) (nodes_with_params g).
Proof.
  intros H N P D. unfold struct_ok, struct_fields. rewrite (fields_are_nodes g H N). split.
  - assert (A : forall (l m : list string), NoDup l -> NoDup m -> (forall x, In x m -> ~ In x l) -> NoDup (l ++ m)).
    { clear. induction l as [|y l IH]; intros m Hl Hm Hd; [exact Hm|]. inversion Hl; subst. cbn. constructor.
      - rewrite in_app_iff. intros [Hy|Hy]; [contradiction|]. apply (Hd y Hy). left; reflexivity.
      - apply IH; auto. intros x Hx Hx'. apply (Hd x Hx). right; exact Hx'. }
    apply A; [exact N|repeat constructor; cbn; intuition discriminate|].
    intros x [<-|[<-|[]]]; assumption.
  - intros x i Hi. split; [exact Hi|]. intros j Hj. eapply nodup_fst_fun; eauto.
Qed.

(** Conversely, references can be right only if the names are distinct. *)
Lemma fields_need g : NoDup (map snd (nodes_with_params g)) ->
  struct_ok (struct_fields g) -> refers_to_own (collect_all_fields g) (nodes_with_params g) ->
  NoDup (map fst (nodes_with_params g)) /\
  ~ In "phantom"%string (map fst (nodes_with_params g)) /\ ~ In "device"%string (map fst (nodes_with_params g)).
Proof.
  intros I S R. unfold struct_ok, struct_fields in S. destruct (nodup_app _ _ S) as (_ & _ & D).
  assert (Hin : forall x, In x (map fst (nodes_with_params g)) -> In x (map fst (collect_all_fields g))).
  { intros x Hx. apply in_map_iff in Hx. destruct Hx as ([y i] & <- & Hy). destruct (R y i Hy) as [H _]. apply (in_map fst) in H. exact H. }
  split; [|split; intros Hx; apply (D _ (Hin _ Hx)); cbn; tauto].
  assert (U : forall x i j, In (x, i) (nodes_with_params g) -> In (x, j) (nodes_with_params g) -> i = j).
  { intros x i j Hi Hj. destruct (R x i Hi) as [_ U]. symmetry. apply U. destruct (R x j Hj) as [H _]. exact H. }
  clear -I U. induction (nodes_with_params g) as [|[x i] l IH]; [constructor|]. cbn in I |- *. inversion I as [|? ? I1 I2]; subst. constructor.
  - intros Hx. apply in_map_iff in Hx. destruct Hx as ([y j] & E & Hy). cbn in E. subst y.
    assert (i = j) by (apply (U x); [left; reflexivity|right; exact Hy]). subst j. apply I1. apply (in_map snd) in Hy. exact Hy.
  - apply IH; [exact I2|]. intros y a b Ha Hb. apply (U y); right; assumption.
Qed.

(** ** With repeated names *)
Definition form (x : string) (k : nat) : string := if (1 <? k)%nat then (x ++ "_" ++ dec (N.of_nat k))%string else x.
Lemma no_us_not x y z : no_underscore x = true -> x <> (y ++ String "_" z)%string.
Proof.
  intros H E. subst x. unfold no_underscore in H. rewrite string_forall_app in H. apply andb_prop in H. destruct H as [_ H]. cbn in H. discriminate.
Qed.
Lemma form_inj x y j k : no_underscore x = true -> no_underscore y = true -> (1 <= j)%nat -> (1 <= k)%nat -> form x j = form y k -> x = y /\ j = k.
Proof.
  intros Hx Hy Hj Hk E. unfold form in E. destruct (Nat.ltb_spec 1 j), (Nat.ltb_spec 1 k).
  - cbn [String.append] in E. apply us_split in E; [|exact Hx|exact Hy]. destruct E as [-> E]. apply dec_inj in E. split; [reflexivity|lia].
  - exfalso. apply (no_us_not y x (dec (N.of_nat j)) Hy). symmetry. exact E.
  - exfalso. exact (no_us_not x y (dec (N.of_nat k)) Hx E).
  - split; [exact E|lia].
Qed.

Definition distinctly (f : counts -> counts * list (string * N)) (w : list (string * N)) : Prop :=
  forall c, (forall x, In x (map fst w) -> no_underscore x = true) ->
    (forall y, In y (map fst (snd (f c))) -> exists x k, In x (map fst w) /\ y = form x k /\ (count_of c x < k)%nat /\ (k <= count_of (fst (f c)) x)%nat) /\
    NoDup (map fst (snd (f c))) /\ forall x, (count_of c x <= count_of (fst (f c)) x)%nat.
Lemma distinctly_app f h u v : distinctly f u -> distinctly h v ->
  distinctly (fun c => let (c1, f1) := f c in let (c2, f2) := h c1 in (c2, f1 ++ f2)) (u ++ v).
Proof.
  intros Hf Hh c K. rewrite map_app in K.
  destruct (Hf c) as (A1 & N1 & M1); [intros; apply K, in_or_app; left; assumption|].
  destruct (f c) as [c1 f1]. cbn [fst snd] in *.
  destruct (Hh c1) as (A2 & N2 & M2); [intros; apply K, in_or_app; right; assumption|].
  destruct (h c1) as [c2 f2]. cbn [fst snd] in *. rewrite !map_app. repeat split.
  - intros y Hy. apply in_app_or in Hy. destruct Hy as [Hy|Hy].
    + destruct (A1 y Hy) as (x & k & Hx & -> & Hk & Hk'). exists x, k. rewrite in_app_iff. specialize (M2 x). repeat split; auto; lia.
    + destruct (A2 y Hy) as (x & k & Hx & -> & Hk & Hk'). exists x, k. rewrite in_app_iff. specialize (M1 x). repeat split; auto; lia.
  - assert (D : forall y, In y (map fst f1) -> ~ In y (map fst f2)).
    { intros y H1 H2. destruct (A1 y H1) as (x & k & Hx & E & Hk & Hk'). destruct (A2 y H2) as (x' & k' & Hx' & E' & Hj & Hj').
      destruct (form_inj x x' k k') as [-> ->]; [apply K, in_or_app; left; exact Hx|apply K, in_or_app; right; exact Hx'|lia|lia|congruence|lia]. }
    clear -N1 N2 D. induction (map fst f1) as [|y l IH]; [exact N2|]. cbn. inversion N1; subst. constructor.
    + rewrite in_app_iff. intros [H|H]; [contradiction|]. apply (D y); [left; reflexivity|exact H].
    + apply IH; auto. intros z Hz. apply D. right; exact Hz.
  - intros x. specialize (M1 x). specialize (M2 x). lia.
Qed.
Lemma distinctly_ext f h u : (forall c, f c = h c) -> distinctly f u -> distinctly h u.
Proof. intros E H c. rewrite <- E. apply H. Qed.
Lemma distinctly_nil u : distinctly (fun c => (c, [])) u.
Proof. intros c _. cbn. repeat split; [intros y []|constructor|lia]. Qed.

Lemma fields_distinct :
  (forall n, distinctly (sub_fields n) (with_params n)) /\
  (forall k, distinctly (sub_fields_k k) (with_params_k k)) /\
  (forall l, distinctly (sub_fields_l l) (with_params_l l)).
Proof.
  apply fnode_ind3.
  - intros x i p k IH. cbn [with_params].
    apply (distinctly_ext (fun c => let (c1, f1) := (if p then let (c', y) := next_name c x in (c', [(y, i)]) else (c, [])) in let (c2, f2) := sub_fields_k k c1 in (c2, f1 ++ f2)));
      [reflexivity|].
    apply distinctly_app; [|exact IH]. destruct p; [|apply distinctly_nil].
    intros c _. unfold next_name. cbn [fst snd map]. repeat split.
    + intros y [<-|[]]. exists x, (S (count_of c x)). split; [left; reflexivity|]. split; [reflexivity|]. split; [lia|].
      unfold count_of at 2. unfold sget, sput. cbn. rewrite String.eqb_refl. lia.
    + repeat constructor. intros [].
    + intros y. unfold count_of at 2. unfold sput. cbn [sget]. destruct (String.eqb_spec x y) as [->|]; [|unfold count_of; lia]. lia.
  - intros. apply distinctly_nil.
  - intros a Ha b Hb. eapply distinctly_ext; [|apply (distinctly_app _ _ _ _ Ha Hb)]. reflexivity.
  - intros b Hb. exact Hb.
  - intros b Hb. apply distinctly_nil.
  - apply distinctly_nil.
  - intros n Hn l Hl. eapply distinctly_ext; [|apply (distinctly_app _ _ _ _ Hn Hl)]. reflexivity.
Qed.

Lemma root_distinct g : forall c,
  (forall x, In x (map fst (inner_with_params g)) -> no_underscore x = true) ->
  (forall x, In x (map fst (own_with_params g)) -> no_underscore x = true) ->
  NoDup (map fst (own_with_params g)) ->
  (forall x, In x (map fst (own_with_params g)) -> ~ In x (map fst (inner_with_params g))) ->
  NoDup (map fst (root_fields g c)) /\
  forall y, In y (map fst (root_fields g c)) -> In y (map fst (own_with_params g)) \/
    exists x k, In x (map fst (inner_with_params g)) /\ y = form x k /\ (count_of c x < k)%nat.
Proof.
  induction g as [|[x i p k] g IH]; intros c Ki Ko N D; [cbn; split; [constructor|intros y []]|].
  unfold inner_with_params, own_with_params in *. cbn [flat_map kind_of] in *. rewrite map_app in Ki, Ko, N, D. cbn [root_fields].
  destruct (proj1 (proj2 fields_distinct) k c) as (A & NA & M); [intros; apply Ki, in_or_app; left; assumption|].
  destruct (sub_fields_k k c) as [c2 f2]. cbn [fst snd] in *. destruct (nodup_app _ _ N) as (N1 & N2 & N3).
  destruct (IH c2) as (I1 & I2).
  { intros y Hy. apply Ki, in_or_app; right; exact Hy. }
  { intros y Hy. apply Ko, in_or_app; right; exact Hy. }
  { exact N2. }
  { intros y Hy Hy'. apply (D y); [apply in_or_app; right; exact Hy|rewrite map_app; apply in_or_app; right; exact Hy']. }
  assert (B : NoDup (map fst f2 ++ map fst (root_fields g c2)) /\
     forall y, In y (map fst f2 ++ map fst (root_fields g c2)) -> In y (map fst (own_with_params g)) \/
       exists x0 k0, In x0 (map fst (with_params_k k) ++ map fst (inner_with_params g)) /\ y = form x0 k0 /\ (count_of c x0 < k0)%nat).
  { split.
    - assert (Dj : forall y, In y (map fst f2) -> ~ In y (map fst (root_fields g c2))).
      { intros y H1 H2. destruct (A y H1) as (x1 & k1 & Hx1 & -> & Hk1 & Hk1'). destruct (I2 _ H2) as [H2'|(x2 & k2 & Hx2 & E & Hk2)].
        - unfold form in H2'. destruct (1 <? k1)%nat.
          + assert (Q : no_underscore (x1 ++ "_" ++ dec (N.of_nat k1))%string = true) by (apply Ko, in_or_app; right; exact H2').
            apply (no_us_not _ x1 (dec (N.of_nat k1)) Q). reflexivity.
          + apply (D x1); [apply in_or_app; right; exact H2'|rewrite map_app; apply in_or_app; left; exact Hx1].
        - destruct (form_inj x1 x2 k1 k2) as [-> ->]; [apply Ki, in_or_app; left; exact Hx1|apply Ki, in_or_app; right; exact Hx2|lia|lia|exact E|lia]. }
      clear -NA I1 Dj. induction (map fst f2) as [|y l IH]; [exact I1|]. cbn. inversion NA; subst. constructor.
      + rewrite in_app_iff. intros [H|H]; [contradiction|]. apply (Dj y); [left; reflexivity|exact H].
      + apply IH; auto. intros z Hz. apply Dj. right; exact Hz.
    - intros y Hy. apply in_app_or in Hy. destruct Hy as [Hy|Hy].
      + right. destruct (A y Hy) as (x1 & k1 & Hx1 & -> & Hk1 & _). exists x1, k1. rewrite in_app_iff. auto.
      + destruct (I2 y Hy) as [H|(x2 & k2 & Hx2 & -> & Hk2)]; [left; exact H|right]. exists x2, k2. rewrite in_app_iff. specialize (M x2). repeat split; auto; lia. }
  destruct B as [B1 B2]. rewrite !map_app. destruct p; cbn [map app].
  - split.
    + constructor; [|exact B1]. intros H. destruct (B2 x H) as [H'|(x1 & k1 & Hx1 & E & _)].
      * apply (N3 x); [left; reflexivity|exact H'].
      * unfold form in E. destruct (1 <? k1)%nat.
        -- apply (no_us_not x x1 (dec (N.of_nat k1))); [apply Ko; left; reflexivity|exact E].
        -- subst x1. apply (D x); [left; reflexivity|]. rewrite map_app. exact Hx1.
    + intros y [<-|Hy]; [left; left; reflexivity|]. destruct (B2 y Hy) as [H|H]; [left; right; exact H|right]. exact H.
  - split; [exact B1|]. intros y Hy. destruct (B2 y Hy) as [H|H]; [left; exact H|right]. exact H.
Qed.

Lemma struct_distinct g :
  (forall x i, In (x, i) (own_with_params g ++ inner_with_params g) -> no_underscore x = true /\ x <> "phantom"%string /\ x <> "device"%string) ->
  NoDup (map fst (own_with_params g)) ->
  (forall x, In x (map fst (own_with_params g)) -> ~ In x (map fst (inner_with_params g))) ->
  struct_ok (struct_fields g).
Proof.
  intros K N D.
  assert (K' : forall x, In x (map fst (own_with_params g)) \/ In x (map fst (inner_with_params g)) -> no_underscore x = true /\ x <> "phantom"%string /\ x <> "device"%string).
  { intros x Hx. assert (H : In x (map fst (own_with_params g ++ inner_with_params g))) by (rewrite map_app, in_app_iff; exact Hx).
    apply in_map_iff in H. destruct H as ([y i] & <- & H). apply (K y i H). }
  destruct (root_distinct g [] (fun x H => proj1 (K' x (or_intror H))) (fun x H => proj1 (K' x (or_introl H))) N D) as (A & B).
  unfold struct_ok, struct_fields. unfold collect_all_fields.
  assert (R : forall y, y = "phantom"%string \/ y = "device"%string -> ~ In y (map fst (root_fields g []))).
  { intros y Hy H. destruct (B y H) as [Ho|(x & k & Hx & E & _)].
    - destruct (K' y (or_introl Ho)) as (_ & P & Q). tauto.
    - destruct (K' x (or_intror Hx)) as (_ & P & Q). unfold form in E. destruct (1 <? k)%nat.
      + assert (U : no_underscore y = true) by (destruct Hy as [->| ->]; reflexivity). apply (no_us_not y x (dec (N.of_nat k)) U E).
      + subst x. tauto. }
  clear -A R. induction (map fst (root_fields g [])) as [|y l IH]; cbn.
  - repeat constructor; cbn; intuition discriminate.
  - inversion A; subst. constructor.
    + rewrite in_app_iff. intros [H|H]; [contradiction|]. apply (R y); [cbn in H; intuition congruence|left; reflexivity].
    + apply IH; auto. intros z Hz H. apply (R z Hz). right; exact H.
Qed.
