From Verif Require Import Util TopSort_Model TopSort_Spec.

Lemma is_top_sorted_iff ns : is_top_sorted ns = true <-> ~ backward_reference ns.
Proof.
  unfold is_top_sorted. rewrite forallb_forall. split.
  - intros H (i & j & p & c & name & Hi & Hj & Hlt & Hne & Hp & Hc).
    specialize (H (i, p)). cbn in H.
    rewrite forallb_forall in H.
    specialize (H (proj2 (enumerate_spec _ _ _) Hi) name Hp). cbn in H.
    destruct (String.eqb_spec name ""); [contradiction|].
    rewrite forallb_forall in H.
    specialize (H (j, c) (proj2 (enumerate_spec _ _ _) Hj)). cbn in H.
    rewrite (proj2 (mem_str_In _ _) Hc) in H.
    apply negb_true_iff, Nat.ltb_ge in H. lia.
  - intros H [i p] Hip. apply enumerate_spec in Hip.
    rewrite forallb_forall. intros name Hp.
    destruct (String.eqb_spec name ""); [reflexivity|].
    rewrite forallb_forall. intros [j c] Hjc. apply enumerate_spec in Hjc.
    destruct (mem_str name (nio_in c)) eqn:E; [|reflexivity].
    apply mem_str_In in E. apply negb_true_iff, Nat.ltb_ge.
    destruct (le_lt_dec i j); [assumption|].
    exfalso. apply H. exists i, j, p, c, name. auto 10.
Qed.

Lemma executable_mono ns : forall a b, (forall x, In x a -> In x b) ->
  executable a ns -> executable b ns.
Proof.
  induction ns as [|n ns IH]; intros a b Hab H; inversion H; subst; constructor.
  - intros name Hn Hne. apply Hab. auto.
  - eapply IH; [|eassumption]. intros x Hx. apply in_app_iff in Hx. apply in_app_iff.
    destruct Hx; auto.
Qed.

Lemma sorted_executable_gen pre ns avail :
  ~ backward_reference (pre ++ ns) -> ~ self_reference (pre ++ ns) ->
  closed_over avail (pre ++ ns) ->
  executable (flat_map nio_out pre ++ avail) ns.
Proof.
  revert pre. induction ns as [|n ns IH]; intros pre Hb Hs Hc; constructor.
  - intros name Hin Hne.
    assert (Hn : In n (pre ++ n :: ns)) by (apply in_app_iff; right; left; reflexivity).
    destruct (Hc n name Hn Hin Hne) as [H|[p [Hp Hout]]].
    + apply in_app_iff. right. exact H.
    + apply in_app_iff in Hp. destruct Hp as [Hp|[Hp|Hp]].
      * apply in_app_iff. left. apply in_flat_map. exists p. auto.
      * subst p. exfalso. apply Hs. exists n, name. auto.
      * exfalso. apply Hb.
        apply In_nth_error in Hp. destruct Hp as [k Hk].
        exists (length pre + S k), (length pre), p, n, name.
        repeat split; try assumption; try lia.
        -- rewrite nth_error_app2 by lia.
           replace (length pre + S k - length pre) with (S k) by lia. exact Hk.
        -- rewrite nth_error_app2 by lia. rewrite Nat.sub_diag. reflexivity.
  - assert (E : pre ++ n :: ns = (pre ++ [n]) ++ ns) by (rewrite <- app_assoc; reflexivity).
    rewrite E in Hb, Hs, Hc. specialize (IH _ Hb Hs Hc).
    eapply executable_mono; [|exact IH].
    intros x. rewrite flat_map_app. cbn. rewrite app_nil_r, !in_app_iff. tauto.
Qed.

Lemma sorted_executable ns avail :
  is_top_sorted ns = true -> ~ self_reference ns -> closed_over avail ns ->
  executable avail ns.
Proof.
  intros H. apply is_top_sorted_iff in H.
  exact (sorted_executable_gen [] ns avail H).
Qed.

(** Conversely a rejected graph cannot be run in list order when each
    name has one producer and inputs are not themselves produced. *)
Lemma executable_In avail ns : executable avail ns ->
  forall j c name, nth_error ns j = Some c -> In name (nio_in c) -> name <> ""%string ->
  In name avail \/ exists i p, i < j /\ nth_error ns i = Some p /\ In name (nio_out p).
Proof.
  induction 1 as [|avail n ns Hin Hex IH]; intros j c name Hj Hc Hne.
  - destruct j; discriminate Hj.
  - destruct j as [|j].
    + cbn in Hj. inversion Hj; subst. left. auto.
    + cbn in Hj. destruct (IH j c name Hj Hc Hne) as [H|(i & p & Hi & Hp & Ho)].
      * apply in_app_iff in H. destruct H as [H|H]; [|left; exact H].
        right. exists 0, n. repeat split; [lia|exact H].
      * right. exists (S i), p. repeat split; [lia|exact Hp|exact Ho].
Qed.

Lemma not_sorted_not_executable ns avail :
  is_top_sorted ns = false ->
  (forall i j p q name, nth_error ns i = Some p -> nth_error ns j = Some q ->
     In name (nio_out p) -> In name (nio_out q) -> name <> ""%string -> i = j) ->
  (forall p name, In p ns -> In name (nio_out p) -> name <> ""%string -> ~ In name avail) ->
  ~ executable avail ns.
Proof.
  intros Hf Hssa Hfresh Hex.
  assert (Hb : ~ ~ backward_reference ns).
  { intros Hn. apply is_top_sorted_iff in Hn. congruence. }
  apply Hb. intros (i & j & p & c & name & Hi & Hj & Hlt & Hne & Hp & Hc).
  destruct (executable_In _ _ Hex j c name Hj Hc Hne) as [H|(k & q & Hk & Hq & Ho)].
  - eapply Hfresh; [eapply nth_error_In, Hi|exact Hp|exact Hne|exact H].
  - assert (i = k) by (eapply Hssa; eassumption). lia.
Qed.

Lemma extract_opset_some l v :
  extract_opset_version l = Some v <->
  exists before v0 after, l = before ++ (""%string, v0) :: after /\
    (forall d w, In (d, w) before -> d <> ""%string) /\ v = (v0 mod 2 ^ 64)%Z.
Proof.
  induction l as [|[d w] r IH]; cbn [extract_opset_version].
  - split; [discriminate|]. intros (b & v0 & a & H & _). destruct b; discriminate H.
  - destruct (String.eqb_spec d "") as [->|Hd].
    + split.
      * intros H. inversion H; subst. exists [], w, r. repeat split. intros d' w' [].
      * intros (b & v0 & a & H & Hb & Hv). destruct b as [|[d' w'] b]; cbn in H; inversion H; subst.
        -- reflexivity.
        -- exfalso. eapply Hb; [left; reflexivity|reflexivity].
    + rewrite IH. split.
      * intros (b & v0 & a & H & Hb & Hv). exists ((d, w) :: b), v0, a. subst. repeat split.
        intros d' w' [E|E]; [inversion E; subst; exact Hd|eapply Hb; exact E].
      * intros (b & v0 & a & H & Hb & Hv). destruct b as [|[d' w'] b]; cbn in H; inversion H; subst.
        -- contradiction.
        -- exists b, v0, a. repeat split. intros d'' w'' Hin. eapply Hb. right. exact Hin.
Qed.

Lemma extract_opset_none l :
  extract_opset_version l = None <-> forall d w, In (d, w) l -> d <> ""%string.
Proof.
  induction l as [|[d w] r IH]; cbn [extract_opset_version].
  - split; [intros _ d w []|reflexivity].
  - destruct (String.eqb_spec d "") as [->|Hd].
    + split; [discriminate|]. intros H. exfalso. eapply H; [left; reflexivity|reflexivity].
    + rewrite IH. split.
      * intros H d' w' [E|E]; [inversion E; subst; exact Hd|eapply H; exact E].
      * intros H d' w' E. eapply H. right. exact E.
Qed.

Lemma extract_opset_first l v0 before after :
  l = before ++ (""%string, v0) :: after ->
  (forall d w, In (d, w) before -> d <> ""%string) ->
  (0 <= v0 < 2 ^ 63)%Z ->
  extract_opset_version l = Some v0.
Proof.
  intros Hl Hb Hr. apply extract_opset_some.
  exists before, v0, after. repeat split; [exact Hl|exact Hb|].
  symmetry. apply Z.mod_small. lia.
Qed.

Lemma extract_opset_only l v :
  extract_opset_version l = Some v ->
  exists v0, In (""%string, v0) l /\ v = (v0 mod 2 ^ 64)%Z.
Proof.
  intros H. apply extract_opset_some in H.
  destruct H as (b & v0 & a & Hl & _ & Hv). exists v0. split; [|exact Hv].
  subst l. apply in_app_iff. right. left. reflexivity.
Qed.
