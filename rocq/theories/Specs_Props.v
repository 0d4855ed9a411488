(** C80: every node is checked against the version and the numbers of inputs and
    outputs of its operator. *)
From Verif Require Import IR_Model Specs_Model Specs_Spec.
From Coq Require Import NArith ZArith String List Lia Bool.
Import ListNotations.
Local Open Scope string_scope.
Local Open Scope list_scope.
Local Open Scope N_scope.

(** ** The row that applies *)
Section Pick.
Context {A : Type} (ans : A -> option spec_error) (opset : N).
Definition pick_step (best : option (N * option spec_error)) (v : N) (s : A) :=
  if v <=? opset
  then match best with
       | Some (b, _) => if b <=? v then Some (v, ans s) else best
       | None => Some (v, ans s)
       end
  else best.
Fixpoint pick (rows : list (N * A)) (best : option (N * option spec_error)) :=
  match rows with [] => best | (v, s) :: r => pick r (pick_step best v s) end.

Lemma pick_app : forall l r b, pick (l ++ r) b = pick r (pick l b).
Proof. induction l as [|[v s] l IH]; intros; cbn; auto. Qed.

Definition good (rows : list (N * A)) (res : option (N * option spec_error)) : Prop :=
  match res with
  | None => forall v s, In (v, s) rows -> opset < v
  | Some (v, e) => exists s, e = ans s /\ governs opset rows v s
  end.
Lemma pick_good : forall rows, good rows (pick rows None).
Proof.
  intros rows; induction rows as [|[v s] l IH] using rev_ind.
  - cbn. intros v s [].
  - rewrite pick_app. cbn [pick]. unfold pick_step.
    destruct (N.leb_spec v opset) as [Hv|Hv].
    + destruct (pick l None) as [[b e]|]; cbn [good] in IH.
      * destruct IH as (t & He & bf & af & Hl & Hb & H1 & H2).
        destruct (N.leb_spec b v) as [Hbv|Hbv]; cbn [good].
        -- exists s. split; [reflexivity|]. exists l, []. repeat split; auto.
           ++ intros u w Hu Hle. subst l. apply in_app_iff in Hu. destruct Hu as [Hu|[Hu|Hu]].
              ** specialize (H1 _ _ Hu Hle). lia.
              ** injection Hu as <- <-. lia.
              ** specialize (H2 _ _ Hu Hle). lia.
           ++ intros u w [].
        -- exists t. split; [exact He|]. exists bf, (af ++ [(v, s)]).
           subst l. repeat split; auto.
           ++ rewrite <- app_assoc. reflexivity.
           ++ intros u w Hu Hle. apply in_app_iff in Hu. destruct Hu as [Hu|[Hu|[]]].
              ** exact (H2 _ _ Hu Hle).
              ** injection Hu as <- <-. lia.
      * cbn [good]. exists s. split; [reflexivity|]. exists l, []. repeat split; auto.
        -- intros u w Hu Hle. specialize (IH _ _ Hu). lia.
        -- intros u w [].
    + destruct (pick l None) as [[b e]|]; cbn [good] in *.
      * destruct IH as (t & He & bf & af & Hl & Hb & H1 & H2).
        exists t. split; [exact He|]. exists bf, (af ++ [(v, s)]).
        subst l. repeat split; auto.
        -- rewrite <- app_assoc. reflexivity.
        -- intros u w Hu Hle. apply in_app_iff in Hu. destruct Hu as [Hu|[Hu|[]]].
           ++ exact (H2 _ _ Hu Hle).
           ++ injection Hu as <- <-. lia.
      * intros u w Hu. apply in_app_iff in Hu. destruct Hu as [Hu|[Hu|[]]].
        -- exact (IH _ _ Hu).
        -- injection Hu as <- <-. lia.
Qed.

Lemma step_keep b e v s : v <= opset -> v < b -> pick_step (Some (b, e)) v s = Some (b, e).
Proof. intros. unfold pick_step. destruct (N.leb_spec v opset); auto. destruct (N.leb_spec b v); auto; lia. Qed.
Lemma pick_keep : forall rows b e,
  (forall u t, In (u, t) rows -> u <= opset -> u < b) -> pick rows (Some (b, e)) = Some (b, e).
Proof.
  induction rows as [|[v s] l IH]; intros b e H; cbn [pick]; auto.
  destruct (N.leb_spec v opset) as [Hv|Hv].
  - rewrite step_keep; auto. + apply IH. intros u t Hu. apply (H u t). now right.
    + apply (H v s); auto. now left.
  - unfold pick_step at 1. destruct (N.leb_spec v opset); [lia|]. apply IH. intros u t Hu. apply (H u t). now right.
Qed.
Lemma pick_governs rows v s : governs opset rows v s -> pick rows None = Some (v, ans s).
Proof.
  intros (bf & af & -> & Hv & H1 & H2). rewrite pick_app. cbn [pick].
  assert (E : pick_step (pick bf None) v s = Some (v, ans s)).
  { pose proof (pick_good bf) as G. unfold pick_step.
    destruct (N.leb_spec v opset); [|lia].
    destruct (pick bf None) as [[b e]|]; auto. cbn in G. destruct G as (t & _ & b1 & a1 & -> & Hb & _).
    destruct (N.leb_spec b v); auto.
    assert (b <= v); [|lia]. apply (H1 b t); auto. apply in_app_iff. right. now left. }
  rewrite E. apply pick_keep. exact H2.
Qed.
Lemma pick_none rows : (forall v s, In (v, s) rows -> opset < v) -> pick rows None = None.
Proof.
  induction rows as [|[v s] l IH]; intros H; cbn [pick]; auto.
  unfold pick_step. destruct (N.leb_spec v opset).
  - specialize (H v s (or_introl eq_refl)). lia.
  - apply IH. intros u t Hu. apply (H u t). now right.
Qed.
End Pick.

Lemma input_dep a o rows :
  validate_input_spec a o (IDep rows) =
  match pick (validate_input_spec a o) o rows None with Some (_, r) => r | None => None end.
Proof.
  cbn [validate_input_spec].
  match goal with |- match ?f rows None with _ => _ end = _ =>
    assert (E : forall l b, f l b = pick (validate_input_spec a o) o l b) end.
  { induction l as [|[v s] l IH]; intros b; cbn; auto. }
  rewrite E. reflexivity.
Qed.
Lemma output_dep a o rows :
  validate_output_spec a o (ODep rows) =
  match pick (validate_output_spec a o) o rows None with Some (_, r) => r | None => None end.
Proof.
  cbn [validate_output_spec].
  match goal with |- match ?f rows None with _ => _ end = _ =>
    assert (E : forall l b, f l b = pick (validate_output_spec a o) o l b) end.
  { induction l as [|[v s] l IH]; intros b; cbn; auto. }
  rewrite E. reflexivity.
Qed.

Lemma input_sound a o : forall s, validate_input_spec a o s = None -> counts o a s.
Proof.
  fix IH 1. intros [e|m|lo hi|rows] H.
  - cbn in H. destruct (N.eqb_spec a e) as [E|E]; [rewrite <- E; constructor|discriminate].
  - cbn in H. destruct (N.ltb_spec a m); [discriminate|constructor; auto].
  - cbn in H. destruct (N.ltb_spec a lo); [discriminate|]. destruct (N.ltb_spec hi a); [discriminate|]. constructor; lia.
  - assert (F : forall v s, In (v, s) rows -> validate_input_spec a o s = None -> counts o a s).
    { clear H. induction rows as [|[u t] r IHr]; intros v s [].
      - injection H as <- <-. apply IH.
      - apply (IHr _ _ H). }
    rewrite input_dep in H. pose proof (pick_good (validate_input_spec a o) o rows) as G.
    destruct (pick _ o rows None) as [[v e]|]; cbn in G.
    + destruct G as (s & He & Hg). apply By_version with (v := v) (s := s); auto.
      destruct Hg as (bf & af & Hr & _). apply (F v s); [rewrite Hr; apply in_app_iff; right; now left|congruence].
    + now apply Before_all.
Qed.
Lemma input_complete a o s : counts o a s -> validate_input_spec a o s = None.
Proof.
  induction 1.
  - cbn. now rewrite N.eqb_refl.
  - cbn. destruct (N.ltb_spec a m); auto; lia.
  - cbn. destruct (N.ltb_spec a lo); [lia|]. destruct (N.ltb_spec hi a); auto; lia.
  - rewrite input_dep, (pick_governs _ _ _ _ _ H). exact IHcounts.
  - now rewrite input_dep, pick_none.
Qed.
Lemma output_sound a o : forall s, validate_output_spec a o s = None -> counts_out o a s.
Proof.
  fix IH 1. intros [e|lo hi|rows] H.
  - cbn in H. destruct (N.eqb_spec a e) as [E|E]; [rewrite <- E; constructor|discriminate].
  - cbn in H. destruct (N.ltb_spec a lo); [discriminate|]. destruct (N.ltb_spec hi a); [discriminate|]. constructor; lia.
  - assert (F : forall v s, In (v, s) rows -> validate_output_spec a o s = None -> counts_out o a s).
    { clear H. induction rows as [|[u t] r IHr]; intros v s [].
      - injection H as <- <-. apply IH.
      - apply (IHr _ _ H). }
    rewrite output_dep in H. pose proof (pick_good (validate_output_spec a o) o rows) as G.
    destruct (pick _ o rows None) as [[v e]|]; cbn in G.
    + destruct G as (s & He & Hg). apply By_version_out with (v := v) (s := s); auto.
      destruct Hg as (bf & af & Hr & _). apply (F v s); [rewrite Hr; apply in_app_iff; right; now left|congruence].
    + now apply Before_all_out.
Qed.
Lemma output_complete a o s : counts_out o a s -> validate_output_spec a o s = None.
Proof.
  induction 1.
  - cbn. now rewrite N.eqb_refl.
  - cbn. destruct (N.ltb_spec a lo); [lia|]. destruct (N.ltb_spec hi a); auto; lia.
  - rewrite output_dep, (pick_governs _ _ _ _ _ H). exact IHcounts_out.
  - now rewrite output_dep, pick_none.
Qed.

(** A node passes exactly when the version lies within the limits of the
    specification and the numbers of inputs and outputs follow the rules in
    force, for any specification, with rules by version nested to any depth. *)
Theorem C80_exact : forall ins outs opset s,
  validate_node_spec (mkSpecNode ins outs None) opset s = None <->
  (min_opset s <= opset /\ (forall m, max_opset s = Some m -> opset <= m) /\
   counts opset ins (spec_inputs s) /\ counts_out opset outs (spec_outputs s)).
Proof.
  intros ins outs opset s. unfold validate_node_spec, get_onnx_input_count. cbn [nd_count_attr nd_inputs nd_outputs].
  destruct (N.ltb_spec opset (min_opset s)) as [H|H]; [split; [discriminate|intros (?&_); lia]|].
  assert (R : match validate_input_spec ins opset (spec_inputs s) with
              | Some e => Some e | None => validate_output_spec outs opset (spec_outputs s) end = None <->
              counts opset ins (spec_inputs s) /\ counts_out opset outs (spec_outputs s)).
  { split.
    - destruct (validate_input_spec ins opset (spec_inputs s)) eqn:E; [discriminate|]. intros E2.
      split; [now apply input_sound|now apply output_sound].
    - intros [H1 H2]. now rewrite (input_complete _ _ _ H1), (output_complete _ _ _ H2). }
  destruct (max_opset s) as [m|].
  - destruct (N.ltb_spec m opset) as [Hm|Hm].
    + split; [discriminate|]. intros (_ & Hx & _). specialize (Hx m eq_refl). lia.
    + rewrite R. split; [intros []; repeat split; auto; intros k [= <-]; auto|tauto].
  - rewrite R. split; [intros []; repeat split; auto; discriminate|tauto].
Qed.
Print Assumptions C80_exact.

(** The values the subgraphs of a control flow node capture do not count: the
    node is checked as it stands in the model.  (A count is below 2^64.) *)
Theorem C80_captures : forall n k opset s,
  nd_count_attr n = None -> nd_inputs n < 18446744073709551616 ->
  validate_node_spec (add_captures n k) opset s = validate_node_spec n opset s.
Proof.
  intros n k opset s Hn Hb. unfold validate_node_spec.
  assert (E : get_onnx_input_count (add_captures n k) = get_onnx_input_count n).
  { unfold get_onnx_input_count, add_captures. cbn [nd_count_attr]. rewrite Hn.
    replace (nd_inputs n + k - k) with (nd_inputs n) by lia.
    unfold as_usize. rewrite Z.mod_small; lia. }
  rewrite E. reflexivity.
Qed.
Print Assumptions C80_captures.

(** ** The operators *)
(** Within a row, everything is decided by comparisons. *)
Definition row_ok (opset ins outs : N) (row : string * list string * list signature) : Prop :=
  let '(op, ts, sigs) := row in
  onnx_allows sigs opset ins outs = true -> left_out op ins outs = false ->
  Forall (fun t => check_node t (mkSpecNode ins outs None) opset = None) ts.

Definition row_strict (opset ins outs : N) (row : string * list string * list signature) : Prop :=
  let '(op, ts, sigs) := row in
  existsb (String.eqb op) strict = true ->
  Forall (fun t => check_node t (mkSpecNode ins outs None) opset = None -> onnx_allows sigs opset ins outs = true) ts.

Ltac open_check :=
  unfold check_node;
  match goal with |- context [lookup_spec ?t standard_specs] =>
    let s' := eval vm_compute in (lookup_spec t standard_specs) in change (lookup_spec t standard_specs) with s' end;
  cbv beta iota delta [validate_node_spec get_onnx_input_count nd_count_attr nd_inputs nd_outputs min_opset max_opset
    spec_inputs spec_outputs validate_input_spec validate_output_spec];
  repeat match goal with
  | |- context [?a <=? ?b] => destruct (N.leb_spec a b)
  | |- context [?a <? ?b] => destruct (N.ltb_spec a b)
  | |- context [?a =? ?b] => destruct (N.eqb_spec a b)
  end; cbn [orb andb negb].
Ltac open_allows H :=
  unfold onnx_allows in H; cbn [in_force since] in H;
  repeat match type of H with context [if ?a <=? ?b then _ else _] => destruct (N.leb_spec a b) end;
  cbn [in_min in_max out_min out_max at_most] in H; try discriminate H;
  rewrite ?andb_true_iff, ?N.leb_le in H.
Ltac open_left H :=
  cbv [left_out] in H; cbn [String.eqb Ascii.eqb Bool.eqb orb] in H;
  rewrite ?negb_false_iff, ?N.eqb_eq in H.
Lemma rows_ok : forall opset ins outs, outs <= 2147483647 -> Forall (row_ok opset ins outs) standard.
Proof.
  intros opset ins outs Ho. unfold standard.
  repeat (apply Forall_cons; [
    unfold row_ok; intros H1 H2; open_left H2; open_allows H1;
    repeat (apply Forall_cons; [ open_check; try reflexivity; lia |]); apply Forall_nil |]).
  apply Forall_nil.
Qed.
Ltac close_allows :=
  unfold onnx_allows; cbn [in_force since];
  repeat match goal with |- context [if ?a <=? ?b then _ else _] => destruct (N.leb_spec a b) end;
  cbn [in_min in_max out_min out_max at_most]; try lia;
  rewrite ?andb_true_iff, ?N.leb_le; repeat split; lia.
Lemma rows_strict : forall opset ins outs, Forall (row_strict opset ins outs) standard.
Proof.
  intros opset ins outs. unfold standard.
  repeat (apply Forall_cons; [
    unfold row_strict; intros H0; first [vm_compute in H0; discriminate H0 | clear H0;
    repeat (apply Forall_cons; [ open_check; try discriminate; intros _; close_allows |]); apply Forall_nil] |]).
  apply Forall_nil.
Qed.

(** Every node the standard allows, for every opset, passes, unless it is one of
    those left out (see [left_out]).  The full statement, without that
    exception, is false: [C80_documented_refuted].  Outputs are counted up to
    2^31 - 1. *)
Theorem C80_documented_partial : forall op ts sigs t opset ins outs,
  In (op, ts, sigs) standard -> In t ts -> outs <= 2147483647 ->
  onnx_allows sigs opset ins outs = true -> left_out op ins outs = false ->
  check_node t (mkSpecNode ins outs None) opset = None.
Proof.
  intros op ts sigs t opset ins outs Hin Ht Ho H1 H2.
  pose proof (proj1 (Forall_forall _ _) (rows_ok opset ins outs Ho) _ Hin) as R.
  exact (proj1 (Forall_forall _ _) (R H1 H2) _ Ht).
Qed.
Print Assumptions C80_documented_partial.

(** The nodes left out are refused, all of them: the exception is exact. *)
Theorem C80_left_out_refused : forall op ts sigs t opset ins outs,
  In (op, ts, sigs) standard -> In t ts -> left_out op ins outs = true ->
  exists e, check_node t (mkSpecNode ins outs None) opset = Some e.
Proof.
  intros op ts sigs t opset ins outs Hin Ht.
  assert (R : Forall (fun row : string * list string * list signature => let '(op, ts, _) := row in
    left_out op ins outs = true ->
    Forall (fun t => exists e, check_node t (mkSpecNode ins outs None) opset = Some e) ts) standard).
  { unfold standard.
    repeat (apply Forall_cons; [
      intros H2; cbv [left_out] in H2; cbn [String.eqb Ascii.eqb Bool.eqb orb] in H2;
      rewrite ?negb_true_iff, ?N.eqb_neq in H2;
      first [discriminate H2 |
        repeat (apply Forall_cons; [ open_check; first [eexists; reflexivity | lia] |]); apply Forall_nil] |]).
    apply Forall_nil. }
  intros H2. exact (proj1 (Forall_forall _ _) (proj1 (Forall_forall _ _) R _ Hin H2) _ Ht).
Qed.
Print Assumptions C80_left_out_refused.

(** The claim of the documentation that every supported operator works at every
    version of the standard is false: a maximum of three values is allowed by
    the standard at every opset from 1 on, and refused. *)
Theorem C80_documented_refuted : forall opset, 1 <= opset ->
  (exists ts sigs, In ("Max", ts, sigs) standard /\ onnx_allows sigs opset 3 1 = true) /\
  check_node "Max" (mkSpecNode 3 1 None) opset = Some (InvalidInputCount 2 3).
Proof.
  intros opset H. split.
  - exists ["Max"], [Sig 1 1 None 1 (Some 1)]. split.
    + unfold standard. repeat (first [left; reflexivity | right]).
    + unfold onnx_allows. cbn [in_force since]. destruct (N.leb_spec 1 opset); [reflexivity|lia].
  - open_check; try reflexivity; lia.
Qed.
Print Assumptions C80_documented_refuted.

(** A node of one of the operators listed as strict passes only if the standard
    allows it: with a version before the operator, with an input too many or too
    few, it is refused.  For the other operators the specification is wider than
    the standard, and what is missing is left to the processors. *)
Theorem C80_wrong_refused_partial : forall op ts sigs t opset ins outs,
  In (op, ts, sigs) standard -> In t ts -> In op strict ->
  onnx_allows sigs opset ins outs = false ->
  exists e, check_node t (mkSpecNode ins outs None) opset = Some e.
Proof.
  intros op ts sigs t opset ins outs Hin Ht Hs H.
  pose proof (proj1 (Forall_forall _ _) (rows_strict opset ins outs) _ Hin) as R.
  assert (E : existsb (String.eqb op) strict = true).
  { apply existsb_exists. exists op. split; [exact Hs|apply String.eqb_refl]. }
  pose proof (proj1 (Forall_forall _ _) (R E) _ Ht) as Q. cbv beta in Q.
  destruct (check_node t (mkSpecNode ins outs None) opset) as [e|]; [now exists e|].
  rewrite Q in H; [discriminate H|reflexivity].
Qed.
Print Assumptions C80_wrong_refused_partial.

(** The error names what is wrong: a version that is too low names the version
    needed, a wrong number of inputs or outputs the number found. *)
Theorem C80_error : forall ins outs opset s e,
  validate_node_spec (mkSpecNode ins outs None) opset s = Some e ->
  match e with
  | UnsupportedOpset r a => a = opset /\ (r = min_opset s /\ opset < r \/ max_opset s = Some r /\ r < opset)
  | InvalidInputCount _ a => a = ins /\ ~ counts opset ins (spec_inputs s)
  | InvalidOutputCount _ a => a = outs /\ counts opset ins (spec_inputs s) /\ ~ counts_out opset outs (spec_outputs s)
  end.
Proof.
  assert (I : forall a o s e, validate_input_spec a o s = Some e -> exists k, e = InvalidInputCount k a).
  { intros a o. fix IH 1. intros [x|m|lo hi|rows] e H.
    - cbn in H. destruct (a =? x); [discriminate H|]. injection H as <-. now exists x.
    - cbn in H. destruct (a <? m); [|discriminate H]. injection H as <-. now exists m.
    - cbn in H. destruct ((a <? lo) || (hi <? a)); [|discriminate H]. injection H as <-. now exists lo.
    - assert (F : forall v s, In (v, s) rows -> forall e, validate_input_spec a o s = Some e -> exists k, e = InvalidInputCount k a).
      { clear H. induction rows as [|[u t] r IHr]; intros v s [].
        - injection H as <- <-. apply IH.
        - apply (IHr _ _ H). }
      rewrite input_dep in H. pose proof (pick_good (validate_input_spec a o) o rows) as G.
      destruct (pick _ o rows None) as [[v r]|]; [|discriminate H]. cbn in G.
      destruct G as (s & He & bf & af & Hr & _). apply (F v s).
      + rewrite Hr. apply in_app_iff. right. now left.
      + congruence. }
  assert (J : forall a o s e, validate_output_spec a o s = Some e -> exists k, e = InvalidOutputCount k a).
  { intros a o. fix IH 1. intros [x|lo hi|rows] e H.
    - cbn in H. destruct (a =? x); [discriminate H|]. injection H as <-. now exists x.
    - cbn in H. destruct ((a <? lo) || (hi <? a)); [|discriminate H]. injection H as <-. now exists lo.
    - assert (F : forall v s, In (v, s) rows -> forall e, validate_output_spec a o s = Some e -> exists k, e = InvalidOutputCount k a).
      { clear H. induction rows as [|[u t] r IHr]; intros v s [].
        - injection H as <- <-. apply IH.
        - apply (IHr _ _ H). }
      rewrite output_dep in H. pose proof (pick_good (validate_output_spec a o) o rows) as G.
      destruct (pick _ o rows None) as [[v r]|]; [|discriminate H]. cbn in G.
      destruct G as (s & He & bf & af & Hr & _). apply (F v s).
      + rewrite Hr. apply in_app_iff. right. now left.
      + congruence. }
  intros ins outs opset s e. unfold validate_node_spec, get_onnx_input_count. cbn [nd_count_attr nd_inputs nd_outputs].
  destruct (N.ltb_spec opset (min_opset s)); [intros [= <-]; auto|].
  assert (R : match validate_input_spec ins opset (spec_inputs s) with
              | Some e => Some e | None => validate_output_spec outs opset (spec_outputs s) end = Some e ->
    match e with
    | UnsupportedOpset r a => a = opset /\ (r = min_opset s /\ opset < r \/ max_opset s = Some r /\ r < opset)
    | InvalidInputCount _ a => a = ins /\ ~ counts opset ins (spec_inputs s)
    | InvalidOutputCount _ a => a = outs /\ counts opset ins (spec_inputs s) /\ ~ counts_out opset outs (spec_outputs s)
    end).
  { destruct (validate_input_spec ins opset (spec_inputs s)) as [x|] eqn:E.
    - intros [= <-]. destruct (I _ _ _ _ E) as [k ->]. split; auto.
      intros C. rewrite (input_complete _ _ _ C) in E. discriminate E.
    - intros H1. destruct (J _ _ _ _ H1) as [k ->]. split; auto. split; [now apply input_sound|].
      intros C. rewrite (output_complete _ _ _ C) in H1. discriminate H1. }
  destruct (max_opset s) as [m|] eqn:Em; [|exact R].
  destruct (N.ltb_spec m opset); [intros [= <-]; auto|exact R].
Qed.
Print Assumptions C80_error.

(** ** Cases *)
(** A dropout with its ratio as an input: refused up to opset 11, taken from 12. *)
Example C80_dropout :
  check_node "Dropout" (mkSpecNode 2 1 None) 11 = Some (InvalidInputCount 1 2) /\
  check_node "Dropout" (mkSpecNode 2 1 None) 13 = None.
Proof. split; reflexivity. Qed.
(** A convolution with a bias is allowed and taken. *)
Example C80_conv : exists sigs,
  In ("Conv", ["Conv1d"; "Conv2d"; "Conv3d"], sigs) standard /\
  onnx_allows sigs 17 3 1 = true /\ left_out "Conv" 3 1 = false /\
  check_node "Conv2d" (mkSpecNode 3 1 None) 17 = None.
Proof.
  eexists. split; [unfold standard; repeat (first [left; reflexivity | right])|]. repeat split.
Qed.
(** A conditional whose branches capture four values. *)
Example C80_if : check_node "If" (add_captures (mkSpecNode 1 2 None) 4) 16 = None /\
  check_node "If" (mkSpecNode 5 2 None) 16 = Some (InvalidInputCount 1 5).
Proof. split; reflexivity. Qed.
(** A Gelu before its first version. *)
Example C80_gelu : check_node "Gelu" (mkSpecNode 1 1 None) 19 = Some (UnsupportedOpset 20 19).
Proof. reflexivity. Qed.
(** Rules by version in any order: the greatest that applies. *)
Example C80_order :
  validate_input_spec 2 13 (IDep [(14, IExact 9); (11, IExact 2); (1, IExact 1)]) = None.
Proof. reflexivity. Qed.
