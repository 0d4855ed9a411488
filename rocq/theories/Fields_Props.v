(** C42: the fields of the generated struct. *)
From Verif Require Import Util IR_Model Names_Model Names_Proofs Fields_Spec Fields_Model Fields_Proofs.
Open Scope string_scope.
Open Scope list_scope.
Open Scope N_scope.

(** If no Scan body has parameters, the struct has distinct fields and every
    reference means the field of its own node exactly when the names of the
    nodes with parameters, at any depth, are distinct and not reserved.
    Missing: Scan bodies with parameters and repeated names (refuted below). *)
Theorem C42_fields_partial : forall g, forallb no_scan g = true -> NoDup (map snd (nodes_with_params g)) ->
  ((struct_ok (struct_fields g) /\ refers_to_own (collect_all_fields g) (nodes_with_params g)) <->
   (NoDup (map fst (nodes_with_params g)) /\
    ~ In "phantom" (map fst (nodes_with_params g)) /\ ~ In "device" (map fst (nodes_with_params g)))).
Proof.
  intros g H I. split.
  - intros [S R]. exact (fields_need g I S R).
  - intros (N & P & D). exact (fields_ok g H N P D).
Qed.
Print Assumptions C42_fields_partial.

(** Names generated for nodes (C09) meet the last two conditions. *)
Theorem C42_generated_not_reserved : forall r ts r' ns,
  Forall (fun t => In t node_types) ts -> generate_all r ts = (r', ns) -> ~ In "phantom" ns /\ ~ In "device" ns.
Proof.
  intros r ts r' ns Hts E.
  assert (G : forall ts r r' ns n, Forall (fun t => In t node_types) ts -> generate_all r ts = (r', ns) -> In n ns -> exists t c, In t node_types /\ n = type_name t c).
  { clear. induction ts as [|t ts IH]; intros r r' ns n H E Hn; cbn in E.
    - injection E as <- <-. destruct Hn.
    - inversion H; subst. destruct (generate_all _ ts) as [r1 n1] eqn:E1. injection E as <- <-.
      destruct Hn as [<-|Hn]; [eauto|]. eapply IH; eauto. }
  assert (L : forall t c s, type_name t c = s -> forall a b, s = (a ++ String b "")%string -> is_digit b = true).
  { intros t c s H a b Hs. rewrite type_name_eq in H. subst s. pose proof (dec_nonempty c) as Hne. pose proof (dec_digits c) as Hd.
    remember (dec c) as d eqn:Ed. clear Ed. revert Hs.
    assert (X : forall (d : string), d <> "" -> exists p q, d = (p ++ String q "")%string).
    { clear. induction d as [|x d IH]; intros H; [contradiction|]. destruct d as [|y d]; [exists "", x; reflexivity|].
      destruct IH as (p & q & ->); [discriminate|]. exists (String x p), q. reflexivity. }
    destruct (X d Hne) as (p & q & ->). intros Hs. rewrite string_forall_app in Hd. apply andb_prop in Hd. destruct Hd as [_ Hd]. cbn in Hd.
    rewrite <- string_app_assoc in Hs.
    assert (Y : forall (u v : string) c d, (u ++ String c "" = v ++ String d "")%string -> c = d).
    { clear. induction u as [|x u IH]; intros v c d E; destruct v as [|y v]; cbn in E.
      - injection E; auto.
      - injection E as _ E. destruct v; discriminate.
      - injection E as _ E. destruct u; discriminate.
      - injection E as _ E. exact (IH v c d E). }
    apply Y in Hs. subst q. destruct (is_digit b); [reflexivity|discriminate]. }
  split; intros H; destruct (G _ _ _ _ _ Hts E H) as (t & c & _ & En); symmetry in En.
  - specialize (L _ _ _ En "phanto" "m"%char eq_refl). discriminate.
  - specialize (L _ _ _ En "devic" "e"%char eq_refl). discriminate.
Qed.
Print Assumptions C42_generated_not_reserved.

(** Repeated names inside subgraphs still give distinct fields, if the names
    have no underscore, as generated names have not, and the names of the
    graph's own nodes are distinct and do not come again further inside. *)
Theorem C42_struct_partial : forall g,
  (forall x i, In (x, i) (own_with_params g ++ inner_with_params g) -> no_underscore x = true /\ x <> "phantom" /\ x <> "device") ->
  NoDup (map fst (own_with_params g)) ->
  (forall x, In x (map fst (own_with_params g)) -> ~ In x (map fst (inner_with_params g))) ->
  struct_ok (struct_fields g).
Proof. exact struct_distinct. Qed.
Print Assumptions C42_struct_partial.

(** The parameters saved for a node are saved under the name of the field made
    for the node, for every graph. *)
Theorem C42_snapshot_names : forall g, collect_all_snapshots g = collect_all_fields g.
Proof. exact all_snapshots_same. Qed.
Print Assumptions C42_snapshot_names.

(** ** Examples *)
Fixpoint fl (l : list fnode) : fnodes := match l with [] => FNil | n :: r => FCons n (fl r) end.
Definition leaf (x : string) (i : N) := FNode x i true Leaf.
Definition ex_g : list fnode :=
  [leaf "linear1" 1; FNode "if1" 2 false (IfK (fl [leaf "linear2" 3; FNode "loop1" 4 false (LoopK (fl [leaf "conv2d1" 5]))]) (fl [leaf "linear3" 6]))].
Example ex_fields : collect_all_fields ex_g = [("linear1", 1); ("linear2", 3); ("conv2d1", 5); ("linear3", 6)].
Proof. reflexivity. Qed.
Example ex_ok : forallb no_scan ex_g = true /\ NoDup (map fst (nodes_with_params ex_g)) /\ NoDup (map snd (nodes_with_params ex_g)) /\
  ~ In "phantom" (map fst (nodes_with_params ex_g)) /\ ~ In "device" (map fst (nodes_with_params ex_g)).
Proof. repeat split; cbn; repeat constructor; cbn; intuition discriminate. Qed.

(** Two branches with the same names: distinct fields. *)
Definition same_branches : list fnode :=
  [leaf "linear1" 1; FNode "if1" 2 false (IfK (fl [leaf "linear2" 3]) (fl [leaf "linear2" 4]))].
Example same_fields : struct_fields same_branches = ["linear1"; "linear2"; "linear2_2"; "phantom"; "device"].
Proof. reflexivity. Qed.
Example same_struct_hyp :
  (forall x i, In (x, i) (own_with_params same_branches ++ inner_with_params same_branches) -> no_underscore x = true /\ x <> "phantom" /\ x <> "device") /\
  NoDup (map fst (own_with_params same_branches)) /\
  (forall x, In x (map fst (own_with_params same_branches)) -> ~ In x (map fst (inner_with_params same_branches))).
Proof.
  repeat split; cbn in *; try (repeat constructor; cbn; intuition discriminate).
  - destruct H as [H|[H|[H|[]]]]; injection H as <- <-; reflexivity.
  - destruct H as [H|[H|[H|[]]]]; injection H as <- <-; discriminate.
  - destruct H as [H|[H|[H|[]]]]; injection H as <- <-; discriminate.
  - intros x [<-|[]] [H|[H|[]]]; discriminate.
Qed.

(** ** Refutations *)
(** but the code of the second branch reads the field of the first. *)
Theorem C42_reference_refuted : exists g x i j, In (x, i) (nodes_with_params g) /\ i <> j /\
  struct_ok (struct_fields g) /\ In (x, j) (collect_all_fields g) /\ ~ In (x, i) (collect_all_fields g).
Proof.
  exists same_branches, "linear2", 4, 3. cbn. repeat split.
  - tauto.
  - discriminate.
  - unfold struct_ok. cbn. repeat constructor; cbn; intuition discriminate.
  - tauto.
  - intuition discriminate.
Qed.
Print Assumptions C42_reference_refuted.

(** A node of the graph and a node of a subgraph with the same name (which
    C09_subgraph_root_collision_refuted shows to happen). *)
Theorem C42_root_and_subgraph_refuted : exists g, NoDup (map snd (nodes_with_params g)) /\ ~ struct_ok (struct_fields g).
Proof.
  exists [FNode "if1" 1 false (IfK (fl [leaf "linear1" 2]) (fl [leaf "linear2" 3])); leaf "linear1" 4]. split.
  - cbn. repeat constructor; cbn; intuition discriminate.
  - unfold struct_ok. cbn. intros H. inversion H as [|? ? H1 _]; subst. apply H1. cbn. tauto.
Qed.
Print Assumptions C42_root_and_subgraph_refuted.

(** A new name made for a repeated name can itself be taken. *)
Theorem C42_suffix_refuted : exists g, NoDup (map snd (nodes_with_params g)) /\ ~ struct_ok (struct_fields g).
Proof.
  exists [FNode "if1" 1 false (IfK (fl [leaf "a" 2; leaf "a_2" 3]) (fl [leaf "a" 4]))]. split.
  - cbn. repeat constructor; cbn; intuition discriminate.
  - unfold struct_ok. cbn. intros H. inversion H as [|? ? _ H1]; subst. inversion H1 as [|? ? H2 _]; subst. apply H2. cbn. tauto.
Qed.
Print Assumptions C42_suffix_refuted.

(** Parameters in the body of a Scan node get no field at all. *)
Theorem C42_scan_refuted : exists g x i, In (x, i) (nodes_with_params g) /\ NoDup (map fst (nodes_with_params g)) /\
  forall j, ~ In (x, j) (collect_all_fields g).
Proof.
  exists [FNode "scan1" 1 false (ScanK (fl [leaf "linear1" 2]))], "linear1", 2. cbn. repeat split; auto.
  repeat constructor. intros [].
Qed.
Print Assumptions C42_scan_refuted.
