From Coq Require Import Lia ZifyBool ZifyNat.
From Verif Require Import IR_Spec IR_Proofs Passes_Spec Passes_Proofs Fold_Spec Fold_Proofs Attention_Graph Permute_Proofs Simplify_Spec.
Open Scope list_scope.

(** * The number of nodes *)
Lemma update_length names nodes : length (update_constant_references names nodes) = length nodes.
Proof. apply map_length. Qed.

Lemma fold_nodes_length : forall nodes s s' nodes' names, fold_nodes s nodes = Done (s', nodes', names) -> length nodes' = length nodes.
Proof.
  intros nodes s s' nodes' names H. apply fold_nodes_repl in H. induction H; cbn; congruence.
Qed.
Lemma repl_length P s nodes s' nodes' names : repl P s nodes s' nodes' names -> length nodes' = length nodes.
Proof. induction 1; cbn; congruence. Qed.

Lemma fold_constants_length s nodes outputs s' nodes' outputs' :
  fold_constants s nodes outputs = Done (s', nodes', outputs') ->
  length nodes' = length nodes /\ map aname outputs' = map aname outputs.
Proof.
  intros H. destruct (fold_constants_repl _ _ _ _ _ _ H) as (mid & names & Hr & -> & ->).
  rewrite update_length, (repl_length _ _ _ _ _ _ Hr). split; [reflexivity|].
  rewrite map_map. apply map_ext. intros a. unfold to_constant. destruct (asrc a); try reflexivity. destruct (mem_str _ _); reflexivity.
Qed.

Lemma constant_shape_repl s nodes outputs s' nodes' outputs' :
  simplify_constant_shape s nodes outputs = Done (s', nodes', outputs') ->
  exists s1 mid names1 last names2, repl (wanted_step (wanted_gather s nodes)) s nodes s1 mid names1 /\
    repl (wanted_step (wanted_slice s mid)) s1 mid s' last names2 /\
    nodes' = update_constant_references (names1 ++ names2) last /\ outputs' = map (to_constant (names1 ++ names2)) outputs.
Proof.
  unfold simplify_constant_shape. intros H.
  destruct (replace_nodes (wanted_gather s nodes) s nodes) as [| |[[s1 nodes1] names1]] eqn:E1; cbn [ebind] in H; try discriminate.
  destruct (replace_nodes (wanted_slice s nodes1) s1 nodes1) as [| |[[s2 nodes2] names2]] eqn:E2; cbn [ebind] in H; try discriminate.
  assert (Hfin : s' = s2 /\ nodes' = update_constant_references (names1 ++ names2) nodes2 /\ outputs' = map (to_constant (names1 ++ names2)) outputs).
  { destruct (names1 ++ names2) as [|q names] eqn:En; inversion H; subst; [rewrite update_nil, map_to_constant_nil|]; auto. }
  destruct Hfin as (-> & -> & ->). exists s1, nodes1, names1, nodes2, names2. split; [|split; [|auto]].
  - eapply replace_nodes_repl; [|exact E1]. intros n y. unfold wanted_gather. destruct (String.eqb_spec (ntype n) "Gather") as [->|]; discriminate.
  - eapply replace_nodes_repl; [|exact E2]. intros n y. unfold wanted_slice. destruct (String.eqb_spec (ntype n) "Slice") as [->|]; discriminate.
Qed.

Lemma constant_shape_length s nodes outputs s' nodes' outputs' :
  simplify_constant_shape s nodes outputs = Done (s', nodes', outputs') ->
  length nodes' = length nodes /\ map aname outputs' = map aname outputs.
Proof.
  intros H. destruct (constant_shape_repl _ _ _ _ _ _ H) as (s1 & mid & names1 & last & names2 & R1 & R2 & -> & ->).
  rewrite update_length, (repl_length _ _ _ _ _ _ R2), (repl_length _ _ _ _ _ _ R1). split; [reflexivity|].
  rewrite map_map. apply map_ext. intros a. unfold to_constant. destruct (asrc a); try reflexivity. destruct (mem_str _ _); reflexivity.
Qed.

Lemma permute_all_length scalar nodes : forall l l', Permute_Model.permute_all scalar nodes l = Some l' -> length l' = length l.
Proof.
  induction l as [|n r IH]; intros l' H; cbn in H; [injection H as <-; reflexivity|].
  destruct (Permute_Model.permute_node scalar nodes n); [|discriminate].
  destruct (Permute_Model.permute_all scalar nodes r) as [r'|]; [|discriminate]. injection H as <-. cbn. f_equal. apply IH. reflexivity.
Qed.

Lemma filter_le {A} (f : A -> bool) l : (length (filter f l) <= length l)%nat.
Proof. induction l as [|a l IH]; cbn; [lia|]. destruct (f a); cbn; lia. Qed.

Lemma dead_le nodes outputs : (length (eliminate_dead_nodes nodes outputs) <= length nodes)%nat.
Proof. destruct (dead_order nodes outputs) as [f ->]. apply filter_le. Qed.

(** The passes of one round. *)
Lemma round_inv dbg g g' : round dbg g = Done g' ->
  exists n1 n2 s1 n3 o1 n4,
    Attention_Model.coalesce_attention (reading_of (gs_store g)) (gs_nodes g) = Done n1 /\
    Permute_Model.simplify_permute_reshape (index_of (gs_store g)) n1 = Some n2 /\
    simplify_constant_shape (gs_store g) n2 (gs_outputs g) = Done (s1, n3, o1) /\
    fold_constants s1 n3 o1 = Done (gs_store g', n4, gs_outputs g') /\
    gs_nodes g' = eliminate_dead_nodes (eliminate_redundant_nodes dbg
      (eliminate_identity_elements (floats_of (gs_store g')) eq_zero eq_one (eliminate_idempotent_ops n4))) (gs_outputs g').
Proof.
  unfold round. intros H.
  destruct (Attention_Model.coalesce_attention _ _) as [| |n1] eqn:E1; cbn [ebind] in H; try discriminate.
  destruct (Permute_Model.simplify_permute_reshape _ _) as [n2|] eqn:E2; try discriminate.
  destruct (simplify_constant_shape _ _ _) as [| |[[s1 n3] o1]] eqn:E3; cbn [ebind] in H; try discriminate.
  destruct (fold_constants _ _ _) as [| |[[s2 n4] o2]] eqn:E4; cbn [ebind] in H; try discriminate.
  injection H as <-. exists n1, n2, s1, n3, o1, n4. cbn. auto 10.
Qed.

Lemma round_le dbg g g' : round dbg g = Done g' ->
  (size g' <= size g)%nat /\ map aname (gs_outputs g') = map aname (gs_outputs g).
Proof.
  intros H. destruct (round_inv _ _ _ H) as (n1 & n2 & s1 & n3 & o1 & n4 & E1 & E2 & E3 & E4 & E5).
  apply same_length in E1. apply permute_all_length in E2.
  apply constant_shape_length in E3. apply fold_constants_length in E4. destruct E3 as [E3 O3], E4 as [E4 O4].
  split; [|congruence]. unfold size. rewrite E5.
  match goal with |- (length (eliminate_dead_nodes ?a ?b) <= _)%nat => pose proof (dead_le a b) as K end.
  unfold eliminate_redundant_nodes, eliminate_identity_elements, eliminate_idempotent_ops in *.
  rewrite !rename_inputs_length in K. lia.
Qed.

(** No pass is skipped as a whole. *)
Lemma collect_not_skip scalar nodes : forall l, Attention_Model.collect scalar nodes l <> Skip.
Proof.
  induction l as [|n r IH]; cbn; [discriminate|]. destruct (String.eqb _ _); [|exact IH].
  unfold Attention_Model.if_some. destruct (Attention_Model.match_sdpa _ _ _); [exact IH|discriminate|].
  unfold emap, ebind. destruct (Attention_Model.collect scalar nodes r); [contradiction|discriminate|discriminate].
Qed.
Lemma replace_not_skip wanted : forall nodes s, replace_nodes wanted s nodes <> Skip.
Proof.
  induction nodes as [|n r IH]; intros s; cbn [replace_nodes]; [discriminate|].
  destruct (wanted n) as [| |[l ty]]; [|discriminate|].
  - specialize (IH s). destruct (replace_nodes wanted s r) as [| |[[? ?] ?]]; [contradiction|discriminate|discriminate].
  - destruct (noutputs n) as [|o os]; [discriminate|]. cbn [register_constant].
    match goal with |- ebind (replace_nodes _ ?s1 r) _ <> _ => specialize (IH s1); destruct (replace_nodes wanted s1 r) as [| |[[? ?] ?]] end;
      [contradiction|discriminate|discriminate].
Qed.
Lemma fold_not_skip : forall nodes s, fold_nodes s nodes <> Skip.
Proof.
  induction nodes as [|n r IH]; intros s; cbn [fold_nodes]; [discriminate|].
  assert (K : ebind (fold_nodes s r) (fun p => let '(s1, r', outs) := p in Done (s1, n :: r', outs)) <> Skip).
  { specialize (IH s). destruct (fold_nodes s r) as [| |[[? ?] ?]]; [contradiction|discriminate|discriminate]. }
  destruct (String.eqb _ _); [exact K|]. destruct (negb _); [exact K|].
  destruct (try_evaluate (st_value s) n) as [| |[d ty]]; [exact K|discriminate|].
  destruct (noutputs n) as [|o os]; [discriminate|]. cbn [register_constant].
  match goal with |- ebind (fold_nodes ?s1 r) _ <> _ => specialize (IH s1); destruct (fold_nodes s1 r) as [| |[[? ?] ?]] end;
    [contradiction|discriminate|discriminate].
Qed.

Lemma round_not_skip dbg g : round dbg g <> Skip.
Proof.
  unfold round, Attention_Model.coalesce_attention, emap.
  destruct (Attention_Model.collect _ _ _) eqn:E1; cbn [ebind]; [exfalso; exact (collect_not_skip _ _ _ E1)|discriminate|].
  destruct (Permute_Model.simplify_permute_reshape _ _) as [n2|]; [|discriminate].
  unfold simplify_constant_shape.
  destruct (replace_nodes (wanted_gather (gs_store g) n2) _ _) as [| |[[s1 n3] x1]] eqn:E3; cbn [ebind];
    [exfalso; exact (replace_not_skip _ _ _ E3)|discriminate|].
  destruct (replace_nodes (wanted_slice (gs_store g) n3) _ _) as [| |[[s2 n4] x2]] eqn:E4; cbn [ebind];
    [exfalso; exact (replace_not_skip _ _ _ E4)|discriminate|].
  assert (K : forall s n o, ebind (fold_constants s n o) (fun q => let '(s2, n4, o2) := q in
    Done (mkGS s2 (eliminate_dead_nodes (eliminate_redundant_nodes dbg (eliminate_identity_elements (floats_of s2) eq_zero eq_one (eliminate_idempotent_ops n4))) o2) o2)) <> Skip).
  { intros s n o. unfold fold_constants. destruct (fold_nodes s n) as [| |[[? ?] names]] eqn:E; cbn [ebind]; [exfalso; exact (fold_not_skip _ _ E)|discriminate|].
    destruct names; discriminate. }
  destruct (x1 ++ x2); apply K.
Qed.

(** * The loop *)
Lemma rounds_done dbg : forall fuel g g', rounds dbg fuel g = Done g' ->
  exists k m, shrinks (round dbg) k g m /\
    ((k = fuel /\ g' = m) \/ ((k < fuel)%nat /\ round dbg m = Done g' /\ size g' = size m)).
Proof.
  induction fuel as [|f IH]; intros g g' H; cbn [rounds] in H.
  - injection H as <-. exists 0%nat, g. split; [constructor|]. left. auto.
  - destruct (round dbg g) as [| |g1] eqn:E; cbn [ebind] in H; try discriminate.
    destruct (Nat.ltb_spec (length (gs_nodes g)) (length (gs_nodes g1))) as [L|L]; [discriminate|].
    destruct (Nat.eqb_spec (length (gs_nodes g) - length (gs_nodes g1)) 0) as [Z|Z].
    + injection H as <-. exists 0%nat, g. split; [constructor|]. right. unfold size. split; [lia|]. split; [exact E|lia].
    + destruct (IH _ _ H) as (k & m & Hs & Hc). exists (S k), m. split; [econstructor; [exact E|unfold size; lia|exact Hs]|].
      destruct Hc as [[-> ->]|(Hk & Hr & Hz)]; [left; auto|right; split; [lia|auto]].
Qed.

Lemma rounds_panic dbg : forall fuel g, rounds dbg fuel g = Panic ->
  exists k m, (k < fuel)%nat /\ shrinks (round dbg) k g m /\ round dbg m = Panic.
Proof.
  induction fuel as [|f IH]; intros g H; cbn [rounds] in H; [discriminate|].
  destruct (round dbg g) as [| |g1] eqn:E; cbn [ebind] in H; try discriminate.
  - exists 0%nat, g. split; [lia|]. split; [constructor|exact E].
  - destruct (Nat.ltb_spec (length (gs_nodes g)) (length (gs_nodes g1))) as [L|L].
    + exfalso. destruct (round_le _ _ _ E) as [K _]. unfold size in K. lia.
    + destruct (Nat.eqb_spec (length (gs_nodes g) - length (gs_nodes g1)) 0) as [Z|Z]; [discriminate|].
      destruct (IH _ H) as (k & m & Hk & Hs & Hp). exists (S k), m. split; [lia|]. split; [|exact Hp].
      econstructor; [exact E|unfold size; lia|exact Hs].
Qed.

Lemma rounds_not_skip dbg : forall fuel g, rounds dbg fuel g <> Skip.
Proof.
  induction fuel as [|f IH]; intros g; cbn [rounds]; [discriminate|].
  destruct (round dbg g) as [| |g1] eqn:E; cbn [ebind]; [exfalso; exact (round_not_skip _ _ E)|discriminate|].
  destruct (Nat.ltb _ _); [discriminate|]. destruct (Nat.eqb _ _); [discriminate|]. apply IH.
Qed.

Lemma shrinks_size step k g g' : shrinks step k g g' -> (size g' + k <= size g)%nat.
Proof. induction 1; lia. Qed.
Lemma shrinks_outputs dbg k g g' : shrinks (round dbg) k g g' -> map aname (gs_outputs g') = map aname (gs_outputs g).
Proof. induction 1 as [|k g g1 g' H _ _ IH]; [reflexivity|]. rewrite IH. eapply round_le. exact H. Qed.

Lemma simplify_inv dbg inputs g g' inputs' : simplify_graph dbg inputs g = Done (g', inputs') -> inputs' = inputs /\ rounds dbg 10 g = Done g'.
Proof.
  unfold simplify_graph, emap, max_iterations. destruct (rounds dbg 10 g); cbn [ebind]; intros H; try discriminate.
  injection H as <- <-. auto.
Qed.
