(** The conversion of a graph preserves its meaning. *)
From Verif Require Import IR_Model IR_Spec IR_Proofs Names_Model Names_Proofs Sanitize_Model Sanitize_Spec
  Sanitize_Proofs Import_Model Import_Spec.
From Coq Require Import Lia ZifyBool ZifyNat ZifyN.

(** * The name function *)
Lemma chars_san s : map N_of_ascii (list_ascii_of_string (san s)) =
  sanitize_name (map N_of_ascii (list_ascii_of_string s)).
Proof.
  unfold san. rewrite list_ascii_of_string_of_list_ascii, map_map.
  destruct (sanitize_snake (map N_of_ascii (list_ascii_of_string s))) as [Hf _].
  induction Hf as [|c l Hc _ IH]; [reflexivity|]. cbn [map]. rewrite IH. f_equal.
  apply N_ascii_embedding. destruct Hc as [[? ?]|[[? ?]| ->]]; unfold letter_low, digit, underscore in *; lia.
Qed.

Lemma san_idem s : san (san s) = san s.
Proof.
  unfold san at 1. rewrite chars_san, sanitize_idem. reflexivity.
Qed.

Lemma san_empty : san "" = ""%string.
Proof. reflexivity. Qed.

(** * Lists and options *)
Lemma all_some_spec {A} : forall (l : list (option A)) r, all_some l = Some r -> l = map Some r.
Proof.
  induction l as [|[x|] l IH]; intros r H; cbn in H.
  - inversion H. reflexivity.
  - destruct (all_some l) as [r'|]; [|discriminate]. inversion H; subst. cbn. rewrite (IH r' eq_refl). reflexivity.
  - discriminate.
Qed.

Lemma bind_length {V} : forall xs vs (e e' : string -> option V), bind e xs vs = Some e' -> length xs = length vs.
Proof.
  induction xs as [|x xs IH]; intros [|v vs] e e' H; cbn in *; try discriminate; [reflexivity|].
  f_equal. eapply IH; eassumption.
Qed.

Lemma bind_total {V} : forall xs vs (e : string -> option V), length xs = length vs -> exists e', bind e xs vs = Some e'.
Proof.
  induction xs as [|x xs IH]; intros [|v vs] e H; cbn in *; try discriminate; [eauto|].
  apply IH. lia.
Qed.

Lemma bind_oth {V} xs vs (e e' : string -> option V) y : bind e xs vs = Some e' -> ~ In y xs -> e' y = e y.
Proof. exact (bind_other (fun _ _ _ _ => None) xs vs e e' y). Qed.

Lemma bind_nth {V} : forall xs vs (e e' : string -> option V) j x v,
  bind e xs vs = Some e' -> nth_error xs j = Some x -> nth_error vs j = Some v ->
  (forall i, nth_error xs i = Some x -> i = j) -> e' x = Some v.
Proof.
  induction xs as [|y xs IH]; intros [|w vs] e e' j x v H Hx Hv Hu; cbn in H; try discriminate.
  - destruct j; discriminate.
  - destruct j as [|j].
    + cbn in Hx, Hv. inversion Hx; inversion Hv; subst. rewrite (bind_oth _ _ _ _ x H).
      * unfold bind1. rewrite String.eqb_refl. reflexivity.
      * intros Hin. apply In_nth_error in Hin. destruct Hin as [i Hi]. specialize (Hu (S i) Hi). discriminate.
    + cbn in Hx, Hv. apply (IH vs _ _ j x v H Hx Hv). intros i Hi. specialize (Hu (S i) Hi). lia.
Qed.

Lemma Forall2_len {A B} (R : A -> B -> Prop) l l' : Forall2 R l l' -> length l = length l'.
Proof. induction 1; cbn; congruence. Qed.

Definition nonempty (s : string) : bool := negb (String.eqb s "").

Lemma uniq_nth : forall xs i j x, NoDup (filter nonempty xs) -> x <> ""%string ->
  nth_error xs i = Some x -> nth_error xs j = Some x -> i = j.
Proof.
  assert (Hin : forall xs j (x : string), x <> ""%string -> nth_error xs j = Some x -> In x (filter nonempty xs)).
  { intros xs j x Hx H. apply filter_In. split; [eapply nth_error_In; eassumption|].
    unfold nonempty. destruct (String.eqb_spec x ""); [contradiction|reflexivity]. }
  induction xs as [|y xs IH]; intros i j x Hn Hx Hi Hj; [destruct i; discriminate|].
  cbn [filter] in Hn.
  assert (Htail : NoDup (filter nonempty xs)) by (destruct (nonempty y); [inversion Hn; assumption|assumption]).
  destruct i as [|i], j as [|j]; cbn in Hi, Hj.
  - reflexivity.
  - inversion Hi; subst. pose proof (Hin _ _ _ Hx Hj) as Hp.
    assert (Hb : nonempty x = true) by (apply filter_In in Hp; tauto). rewrite Hb in Hn. inversion Hn; contradiction.
  - inversion Hj; subst. pose proof (Hin _ _ _ Hx Hi) as Hp.
    assert (Hb : nonempty x = true) by (apply filter_In in Hp; tauto). rewrite Hb in Hn. inversion Hn; contradiction.
  - f_equal. eapply IH; eassumption.
Qed.

Section Proof.
  Context {V : Type}.
  Variable osem : string -> list (string * attr) -> nat -> list (option V) -> option (list V).
  Variable cval : attr -> V.
  Variable tinfo : N -> dtype * list N.
  Variable lift : rnode -> list nat.
  Variable outer : smap arg.
  Variable g : pgraph.
  Variable final : list attr.
  Hypothesis laws : onnx_laws osem cval.
  Hypothesis legal : legal_graph g.
  Hypothesis outer_dyn : forall k a, sget outer k = Some a -> asrc a = VDynamic.
  Hypothesis outer_empty : sget outer "" = None.

  Notation env := (string -> option V).
  Notation static := (static_of cval final).
  Notation sem := (ir_sem osem).
  Notation U := (graph_names g).

  Record inv (s : gstate) (done : list string) (need : string -> Prop) (e ie : env) : Prop := {
    i_keep : forall o, In o U -> o <> ""%string -> sget (g_outmap s) o <> None -> sget (g_outmap s) (san o) <> None;
    i_in : forall o, In o U -> sget (g_inmap s) o = sget (g_inmap s) (san o);
    i_inkeys : forall o, In o U -> sget (g_inmap s) o <> None -> In o (in_names_of g) /\ sget (g_outmap s) (san o) = None;
    i_inarg : forall o i, In o U -> sget (g_inmap s) o = Some i ->
      exists ty, nth_error (g_inputs s) i = Some (mkArg (san o) ty VDynamic);
    i_outidx : forall k ij, sget (g_outmap s) k = Some ij -> exists a, node_output s ij = Some a;
    i_empty : sget (g_inmap s) "" = None /\ (forall ij, sget (g_outmap s) "" = Some ij -> exists a, node_output s ij = Some a /\ asrc a = VOptional);
    i_outer : g_outer s = outer;
    i_val : forall o v, In o U -> o <> ""%string -> need o -> e o = Some v ->
      exists a, init_in s o = Some a /\ arg_eval static ie a = Some (Some v);
    i_done : incl done U;
    i_def : forall o, o <> ""%string -> need o -> In o done -> sget (g_outmap s) (san o) <> None;
    i_cmap : forall x id, sget (g_cmap s) x = Some id ->
      exists v, ie x = Some v /\ static id = Some v /\ In x (outs_of (g_nodes s));
    i_fresh : forall x, In x (outs_of (g_nodes s)) ->
      exists t c k, In t node_types /\ (c <= cur (g_count s) t)%N /\ x = output_name (type_name t c) k
  }.

  Lemma san_key x o : In x U -> In o U -> (o = x \/ o = san x \/ san o = x \/ san o = san x) -> o = x.
  Proof.
    intros Hx Ho H. apply (lg_apart g legal); [assumption|assumption|].
    destruct H as [->|[->|[<-|H]]]; [reflexivity|apply san_idem|symmetry; apply san_idem|exact H].
  Qed.

  (** Everything [init_in] yields for a name of the graph. *)
  Lemma init_in_names s done need e ie o a : inv s done need e ie -> In o U -> o <> ""%string ->
    init_in s o = Some a ->
    (aname a = san o /\ asrc a = VDynamic) \/ In (aname a) (outs_of (g_nodes s)).
  Proof.
    intros I Ho Hne H. unfold init_in in H.
    destruct (sget (g_inmap s) o) as [i|] eqn:Ei.
    { destruct (i_inarg _ _ _ _ _ I o i Ho Ei) as [ty E]. rewrite E in H. inversion H; subst. left. split; reflexivity. }
    assert (Hout : forall ij, node_output s ij = Some a -> In (aname a) (outs_of (g_nodes s))).
    { intros ij E. unfold node_output in E. destruct (nth_error (g_nodes s) (fst ij)) as [n|] eqn:En; [|discriminate].
      apply nth_error_In in En, E. unfold outs_of. apply in_flat_map. exists n. split; [exact En|].
      apply in_map. exact E. }
    destruct (sget (g_outmap s) (san o)) as [ij|] eqn:Eo; [right; eapply Hout; eassumption|].
    destruct (sget (g_outmap s) o) as [ij|] eqn:Eo2; [right; eapply Hout; eassumption|].
    left. rewrite (i_outer _ _ _ _ _ I) in H.
    assert (Hd : forall b, asrc b = VDynamic -> outer_ref (san o) b = mkArg (san o) (aty b) VDynamic).
    { intros b Hb. unfold outer_ref, is_constant. rewrite Hb. reflexivity. }
    destruct (sget outer (san o)) as [b|] eqn:Eb.
    { inversion H; subst. rewrite Hd by (eapply outer_dyn; eassumption). split; reflexivity. }
    destruct (sget outer o) as [b|] eqn:Eb2.
    { inversion H; subst. rewrite Hd by (eapply outer_dyn; eassumption). split; reflexivity. }
    inversion H; subst. unfold from_name. cbn.
    destruct (String.eqb_spec (san o) "") as [E|_]; [|split; reflexivity].
    exfalso. exact (lg_san_nonempty g legal o Ho Hne E).
  Qed.

  Lemma node_output_in s ij a : node_output s ij = Some a -> In (aname a) (outs_of (g_nodes s)).
  Proof.
    intros E. unfold node_output in E. destruct (nth_error (g_nodes s) (fst ij)) as [n|] eqn:En; [|discriminate].
    apply nth_error_In in En, E. unfold outs_of. apply in_flat_map. exists n. split; [exact En|]. apply in_map. exact E.
  Qed.

  Lemma init_in_empty s done need e ie : inv s done need e ie ->
    exists a, init_in s "" = Some a /\ asrc a = VOptional /\ (aname a = ""%string \/ In (aname a) (outs_of (g_nodes s))).
  Proof.
    intros I. destruct (i_empty _ _ _ _ _ I) as [E1 E2]. unfold init_in. rewrite E1, san_empty.
    destruct (sget (g_outmap s) "") as [ij|].
    - destruct (E2 ij eq_refl) as (a & Ha & Hs). exists a. split; [exact Ha|]. split; [exact Hs|]. right.
      eapply node_output_in; eassumption.
    - rewrite (i_outer _ _ _ _ _ I), outer_empty. eexists. split; [reflexivity|]. split; [reflexivity|]. left. reflexivity.
  Qed.

  (** Reading the inputs of a node. *)
  Lemma inputs_ok s done need e ie : inv s done need e ie -> forall l ins vs,
    incl l (consumed (pg_nodes g)) -> (forall x, In x l -> need x) ->
    all_some (map (init_in s) l) = Some ins -> o_inputs e l = Some vs ->
    args_eval static ie ins = Some vs.
  Proof.
    intros I. induction l as [|x l IH]; intros ins vs Hl Hn Ha Ho; cbn in Ha, Ho.
    - inversion Ha; inversion Ho. reflexivity.
    - destruct (init_in s x) as [a|] eqn:Ex; [|discriminate].
      destruct (all_some (map (init_in s) l)) as [ins'|]; [|discriminate]. cbn in Ha. inversion Ha; subst.
      destruct (if String.eqb x "" then Some None else option_map Some (e x)) as [v|] eqn:Ev; [|discriminate].
      destruct (o_inputs e l) as [vs'|]; [|discriminate]. inversion Ho; subst.
      cbn. rewrite (IH ins' vs' (fun y Hy => Hl y (or_intror Hy)) (fun y Hy => Hn y (or_intror Hy)) eq_refl eq_refl).
      assert (E : arg_eval static ie a = Some v).
      { destruct (String.eqb_spec x "") as [->|Hne].
        - destruct (init_in_empty _ _ _ _ _ I) as (b & Eb & Hs & _). rewrite Eb in Ex. inversion Ex; subst.
          inversion Ev; subst. unfold arg_eval. rewrite Hs. reflexivity.
        - destruct (e x) as [w|] eqn:Ew; [|discriminate]. cbn in Ev. inversion Ev; subst.
          destruct (i_val _ _ _ _ _ I x w) as (b & Eb & Hb); try assumption.
          + unfold graph_names. rewrite !in_app_iff. right. right. right. left. apply Hl. left. reflexivity.
          + apply Hn. left. reflexivity.
          + congruence. }
      rewrite E. reflexivity.
  Qed.

  (** Embedding constants does not change values. *)
  Lemma lift_at_ok s done need e ie : inv s done need e ie -> forall l i l' vs,
    args_eval static ie l = Some vs -> lift_at s l i = Some l' -> args_eval static ie l' = Some vs.
  Proof.
    intros I. induction l as [|a l IH]; intros i l' vs Hv H; cbn in H.
    - destruct i; inversion H; subst; exact Hv.
    - cbn in Hv. destruct (arg_eval static ie a) as [v|] eqn:Ea; [|discriminate].
      destruct (args_eval static ie l) as [ws|] eqn:El; [|discriminate]. inversion Hv; subst. destruct i as [|i].
      + destruct (to_static s a) as [b|] eqn:Eb; [|discriminate]. inversion H; subst. cbn. rewrite El.
        unfold to_static in Eb. destruct (is_constant a) eqn:Hc; [|discriminate].
        destruct (sget (g_cmap s) (aname a)) as [id|] eqn:Eid; [|discriminate]. inversion Eb; subst.
        destruct (i_cmap _ _ _ _ _ I _ _ Eid) as (w & Hw & Hs & _).
        unfold is_constant in Hc. unfold arg_eval in Ea. destruct (asrc a); try discriminate.
        rewrite Hw in Ea. cbn in Ea. inversion Ea; subst. unfold arg_eval. cbn [asrc]. rewrite Hs. reflexivity.
      + destruct (lift_at s l i) as [l2|] eqn:E2; [|discriminate]. inversion H; subst. cbn. rewrite Ea.
        rewrite (IH _ _ _ eq_refl E2). reflexivity.
  Qed.

  Lemma lift_all_ok s done need e ie : inv s done need e ie -> forall is l l' vs,
    args_eval static ie l = Some vs -> lift_all s l is = Some l' -> args_eval static ie l' = Some vs.
  Proof.
    intros I. induction is as [|i is IH]; intros l l' vs Hv H; cbn in H; [inversion H; subst; exact Hv|].
    destruct (lift_at s l i) as [l2|] eqn:E; [|discriminate].
    eapply IH; [|exact H]. eapply lift_at_ok; eassumption.
  Qed.

  (** Changing only the store and advancing the counters. *)
  Lemma inv_count s done need e ie s' :
    g_nodes s' = g_nodes s -> g_inputs s' = g_inputs s -> g_inmap s' = g_inmap s -> g_outmap s' = g_outmap s ->
    g_cmap s' = g_cmap s -> g_outer s' = g_outer s ->
    (forall t, (cur (g_count s) t <= cur (g_count s') t)%N) ->
    inv s done need e ie -> inv s' done need e ie.
  Proof.
    intros E1 E2 E3 E4 E5 E6 Hc I.
    assert (Ei : forall o, init_in s' o = init_in s o).
    { intros o. unfold init_in, node_output. rewrite E1, E2, E3, E4, E6. reflexivity. }
    destruct I. split; rewrite ?E1, ?E2, ?E3, ?E4, ?E5, ?E6; try assumption.
    - intros k ij H. destruct (i_outidx0 k ij H) as [a Ha]. exists a. unfold node_output in *. rewrite E1. exact Ha.
    - split; [exact (proj1 i_empty0)|]. intros ij H. destruct (proj2 i_empty0 ij H) as [a Ha]. exists a.
      unfold node_output in *. rewrite E1. exact Ha.
    - intros o v Ho Hne Hn Hv. rewrite Ei. apply i_val0; assumption.
    - intros x Hx. destruct (i_fresh0 x Hx) as (t & c & k & Ht & Hle & ->). exists t, c, k.
      split; [exact Ht|]. split; [|reflexivity]. specialize (Hc t). lia.
  Qed.

  Lemma inv_need s done (need need' : string -> Prop) e ie :
    (forall o, need' o -> need o) -> inv s done need e ie -> inv s done need' e ie.
  Proof.
    intros H I. destruct I. split; try assumption.
    - intros o v Ho Hne Hn Hv. apply i_val0; auto.
    - intros o Hne Hn Hd. apply i_def0; auto.
  Qed.

  (** Adding a node with outputs called [xs] in the ONNX graph. *)
  Lemma add_gen s done (need : string -> Prop) (e ie : env) n xs ins vs (e0 e' : env) om' cm' (need' : string -> Prop) t c s' :
    inv s done need e ie ->
    nname n = type_name t c -> In t node_types -> (c <= cur (g_count s) t)%N ->
    (forall k, ~ In (output_name (type_name t c) k) (outs_of (g_nodes s))) ->
    map aname (noutputs n) = map (fun k => output_name (type_name t c) (N.of_nat k + 1)) (seq 0 (length (noutputs n))) ->
    Forall2 (fun x a => x <> ""%string -> asrc a = VDynamic \/ asrc a = VConstant) xs (noutputs n) ->
    incl xs U -> NoDup (filter nonempty xs) -> (forall x, In x xs -> ~ In x (in_names_of g) \/ sget (g_inmap s) x = None) ->
    args_eval static ie (ninputs n) = Some ins ->
    sem (ntype n) (nattrs n) (length (noutputs n)) ins = Some vs ->
    bind e0 xs vs = Some e' ->
    (forall o, need' o -> need o) -> (forall o, need' o -> ~ In o xs -> e0 o = e o) ->
    (* the new maps *)
    (forall o, In o U -> o <> ""%string ->
       (exists j, nth_error xs j = Some o /\ sget om' (san o) = Some (length (g_nodes s), j)) \/
       (~ In o xs /\ sget om' (san o) = sget (g_outmap s) (san o))) ->
    (forall o, In o U -> o <> ""%string -> sget om' o <> None -> sget om' (san o) <> None) ->
    (forall ij, sget om' "" = Some ij -> sget (g_outmap s) "" = Some ij \/
       exists j a, ij = (length (g_nodes s), j) /\ nth_error (noutputs n) j = Some a /\ asrc a = VOptional) ->
    (forall k ij, sget om' k = Some ij -> sget (g_outmap s) k = Some ij \/
       (fst ij = length (g_nodes s) /\ (snd ij < length xs)%nat)) ->
    (forall x id, sget cm' x = Some id -> sget (g_cmap s) x = Some id \/
       exists j v, nth_error (map aname (noutputs n)) j = Some x /\ nth_error vs j = Some v /\ static id = Some v) ->
    g_nodes s' = g_nodes s ++ [n] -> g_inputs s' = g_inputs s -> g_inmap s' = g_inmap s -> g_outmap s' = om' ->
    g_cmap s' = cm' -> g_outer s' = g_outer s -> g_count s' = g_count s ->
    exists ie', node_eval sem static ie n = Some ie' /\ inv s' (xs ++ done) need' e' ie'.
  Proof.
    intros I Hname Ht Hc Hfresh Houts Hsrc HxsU Huniq Hnotin Hargs Hsem Hbind Hneed He0
      Hom1 Hom2 Hom3 Hom4 Hcm E1 E2 E3 E4 E5 E6 E7.
    set (news := map (fun k => output_name (type_name t c) (N.of_nat k + 1)) (seq 0 (length (noutputs n)))) in *.
    assert (Hlx : length xs = length (noutputs n)) by (eapply Forall2_len; eassumption).
    assert (Hlv : length xs = length vs) by (eapply bind_length; eassumption).
    assert (Hln : length news = length vs) by (unfold news; rewrite map_length, seq_length; lia).
    destruct (bind_total news vs ie Hln) as [ie' Hie'].
    assert (Hnews : forall j x, nth_error news j = Some x -> x = output_name (type_name t c) (N.of_nat j + 1)).
    { intros j x Hj. unfold news in Hj. rewrite nth_error_map in Hj.
      destruct (nth_error (seq 0 (length (noutputs n))) j) as [k|] eqn:Ek; [|discriminate]. cbn in Hj.
      inversion Hj; subst. assert (Hjl : (j < length (noutputs n))%nat).
      { rewrite <- (seq_length (length (noutputs n)) 0). apply nth_error_Some. congruence. }
      rewrite (nth_error_nth' _ 0%nat) in Ek by (rewrite seq_length; exact Hjl).
      rewrite seq_nth in Ek by exact Hjl. inversion Ek. reflexivity. }
    assert (Hnewu : forall i j x, nth_error news i = Some x -> nth_error news j = Some x -> i = j).
    { intros i j x Hi Hj. apply Hnews in Hi, Hj. subst x. apply output_name_inj in Hj.
      - lia.
      - apply type_name_no_us; exact Ht.
      - apply type_name_no_us; exact Ht. }
    assert (Hie_new : forall j x v, nth_error news j = Some x -> nth_error vs j = Some v -> ie' x = Some v).
    { intros j x v Hj Hv. eapply bind_nth; [exact Hie'|exact Hj|exact Hv|]. intros i Hi. eapply Hnewu; eassumption. }
    assert (Hin_news : forall x, In x news -> exists k, x = output_name (type_name t c) k).
    { intros x Hx. unfold news in Hx. apply in_map_iff in Hx. destruct Hx as (k & <- & _). eauto. }
    assert (Hie_old : forall x, In x (outs_of (g_nodes s)) -> ie' x = ie x).
    { intros x Hx. eapply bind_oth; [exact Hie'|]. intros Hn. destruct (Hin_news _ Hn) as [k ->].
      exact (Hfresh k Hx). }
    assert (Hie_san : forall o, In o U -> ie' (san o) = ie (san o)).
    { intros o Ho. eapply bind_oth; [exact Hie'|]. intros Hn. destruct (Hin_news _ Hn) as [k Ek].
      apply (lg_not_generated g legal o Ho). exists t, c, k. split; assumption. }
    exists ie'. split.
    { unfold node_eval. rewrite Hargs, Hsem, Houts. exact Hie'. }
    assert (Hno_new : forall ij a, node_output s ij = Some a -> node_output s' ij = Some a).
    { intros ij a Ha. unfold node_output in *. rewrite E1. destruct (nth_error (g_nodes s) (fst ij)) as [m|] eqn:Em; [|discriminate].
      rewrite nth_error_app1 by (apply nth_error_Some; congruence). rewrite Em. exact Ha. }
    assert (Hno_last : forall j, node_output s' (length (g_nodes s), j) = nth_error (noutputs n) j).
    { intros j. unfold node_output. rewrite E1. cbn [fst snd]. rewrite nth_error_app2, Nat.sub_diag by lia. reflexivity. }
    assert (Hxs_in : forall o, In o U -> sget (g_inmap s) o <> None -> ~ In o xs).
    { intros o Ho H Hx. destruct (Hnotin o Hx) as [Hn|Hn]; [|contradiction].
      apply Hn. exact (proj1 (i_inkeys _ _ _ _ _ I o Ho H)). }
    assert (Hnone_empty : sget (g_inmap s) "" = None) by exact (proj1 (i_empty _ _ _ _ _ I)).
    split; rewrite ?E1, ?E2, ?E3, ?E4, ?E5, ?E6, ?E7.
    - exact Hom2.
    - exact (i_in _ _ _ _ _ I).
    - intros o Ho H. destruct (i_inkeys _ _ _ _ _ I o Ho H) as [H1 H2]. split; [exact H1|].
      destruct (string_dec o "") as [->|Hne]; [congruence|].
      destruct (Hom1 o Ho Hne) as [(j & Hj & _)|[_ Hold]]; [|congruence].
      exfalso. apply (Hxs_in o Ho H). eapply nth_error_In; eassumption.
    - exact (i_inarg _ _ _ _ _ I).
    - intros k ij H. destruct (Hom4 k ij H) as [Hold|[H1 H2]].
      + destruct (i_outidx _ _ _ _ _ I k ij Hold) as [a Ha]. exists a. apply Hno_new. exact Ha.
      + destruct ij as [i j]. cbn in H1, H2. subst i. rewrite Hno_last.
        destruct (nth_error (noutputs n) j) as [a|] eqn:Ea; [eauto|]. apply nth_error_None in Ea. lia.
    - split; [exact Hnone_empty|]. intros ij H. destruct (Hom3 ij H) as [H'|(j & a & -> & Ha & Hs)].
      + destruct (proj2 (i_empty _ _ _ _ _ I) ij H') as (a & Ha & Hs). exists a. split; [apply Hno_new; exact Ha|exact Hs].
      + exists a. split; [apply eq_trans with (1 := Hno_last j); exact Ha|exact Hs].
    - exact (i_outer _ _ _ _ _ I).
    - intros o v Ho Hne Hn Hv.
      destruct (Hom1 o Ho Hne) as [(j & Hj & Hmap)|[Hnx Hold]].
      + assert (Hin : sget (g_inmap s) o = None).
        { destruct (sget (g_inmap s) o) eqn:E; [|reflexivity]. exfalso.
          apply (Hxs_in o Ho); [congruence|]. eapply nth_error_In; eassumption. }
        assert (Hjl : (j < length xs)%nat) by (apply nth_error_Some; congruence).
        destruct (nth_error (noutputs n) j) as [a|] eqn:Ea; [|apply nth_error_None in Ea; lia].
        destruct (nth_error vs j) as [w|] eqn:Ew; [|apply nth_error_None in Ew; lia].
        exists a. split.
        { unfold init_in. rewrite E3, Hin, E4, Hmap. apply eq_trans with (1 := Hno_last j). exact Ea. }
        assert (Hw : e' o = Some w).
        { eapply bind_nth; [exact Hbind|exact Hj|exact Ew|]. intros i Hi. eapply uniq_nth; eassumption. }
        assert (Hna : nth_error news j = Some (aname a)).
        { rewrite <- Houts, nth_error_map, Ea. reflexivity. }
        assert (Hs : asrc a = VDynamic \/ asrc a = VConstant).
        { clear -Hsrc Hj Ea Hne. revert j Hj Ea. induction Hsrc as [|x b xs bs Hxb _ IH]; intros [|j] Hj Ea; cbn in *; try discriminate.
          - inversion Hj; inversion Ea; subst. auto.
          - eapply IH; eassumption. }
        assert (Hval : ie' (aname a) = Some w) by (eapply Hie_new; eassumption).
        unfold arg_eval. destruct Hs as [-> | ->]; rewrite Hval; cbn; congruence.
      + assert (Hv0 : e o = Some v).
        { rewrite <- (He0 o Hn Hnx). rewrite <- Hv. symmetry. eapply bind_oth; eassumption. }
        destruct (i_val _ _ _ _ _ I o v Ho Hne (Hneed o Hn) Hv0) as (a & Ha & Hea).
        exists a. split.
        { unfold init_in in Ha |- *. rewrite E2, E3, E4, E6, Hold.
          destruct (sget (g_inmap s) o); [exact Ha|].
          destruct (sget (g_outmap s) (san o)) as [ij|] eqn:Eo; [apply Hno_new; exact Ha|].
          destruct (sget om' o) as [ij|] eqn:Eo'; [exfalso|].
          - apply (Hom2 o Ho Hne); [congruence|exact Hold].
          - destruct (sget (g_outmap s) o) as [ij|] eqn:Eo2; [exfalso|exact Ha].
            apply (i_keep _ _ _ _ _ I o Ho Hne); congruence. }
        destruct (init_in_names _ _ _ _ _ _ _ I Ho Hne Ha) as [[Hn1 Hd]|Hn1].
        * unfold arg_eval in *. rewrite Hd in *. rewrite Hn1 in *. rewrite Hie_san by exact Ho. exact Hea.
        * unfold arg_eval in *. destruct (asrc a); try exact Hea; rewrite Hie_old by exact Hn1; exact Hea.
    - intros o Ho. apply in_app_iff in Ho. destruct Ho as [Ho|Ho]; [apply HxsU, Ho|exact (i_done _ _ _ _ _ I o Ho)].
    - intros o Hne Hn Hd.
      assert (Ho : In o U).
      { apply in_app_iff in Hd. destruct Hd as [Hd|Hd]; [apply HxsU, Hd|exact (i_done _ _ _ _ _ I o Hd)]. }
      destruct (Hom1 o Ho Hne) as [(j & _ & ->)|[Hnx ->]]; [discriminate|].
      apply in_app_iff in Hd. destruct Hd as [Hd|Hd]; [contradiction|]. exact (i_def _ _ _ _ _ I o Hne (Hneed o Hn) Hd).
    - assert (Hsub : forall x, In x (outs_of (g_nodes s ++ [n])) <-> In x (outs_of (g_nodes s)) \/ In x news).
      { intros x. unfold outs_of. rewrite flat_map_app, in_app_iff. cbn. rewrite app_nil_r, Houts. reflexivity. }
      intros x id H. destruct (Hcm x id H) as [Hold|(j & v & Hj & Hv & Hs)].
      + destruct (i_cmap _ _ _ _ _ I x id Hold) as (v & Hv & Hs & Hin). exists v.
        split; [rewrite Hie_old by exact Hin; exact Hv|]. split; [exact Hs|]. apply Hsub. left. exact Hin.
      + rewrite Houts in Hj. exists v. split; [eapply Hie_new; eassumption|]. split; [exact Hs|].
        apply Hsub. right. eapply nth_error_In; eassumption.
    - intros x Hx. unfold outs_of in Hx. rewrite flat_map_app, in_app_iff in Hx. cbn in Hx. rewrite app_nil_r, Houts in Hx.
      destruct Hx as [Hx|Hx]; [exact (i_fresh _ _ _ _ _ I x Hx)|].
      destruct (Hin_news x Hx) as [k ->]. exists t, c, k. split; [exact Ht|]. split; [exact Hc|reflexivity].
  Qed.

  Lemma add_outputs_ok : forall outs idx name k cid om cm outs' om' cm',
    add_outputs idx name k cid outs om cm = (outs', om', cm') ->
    map aname outs' = map (fun j => output_name name (N.of_nat j + 1)) (seq k (length outs)) /\
    Forall2 (fun a b => asrc b = asrc a) outs outs' /\
    (forall q, (exists j, nth_error (map aname outs) j = Some q /\ sget om' q = Some (idx, (k + j)%nat)) \/
               (~ In q (map aname outs) /\ sget om' q = sget om q)) /\
    (forall x id, sget cm' x = Some id -> sget cm x = Some id \/ (cid = Some id /\ In x (map aname outs'))).
  Proof.
    induction outs as [|o outs IH]; intros idx name k cid om cm outs' om' cm' H; cbn [add_outputs] in H.
    - inversion H; subst. split; [reflexivity|]. split; [constructor|]. split; [|auto].
      intros q. right. split; [intros []|reflexivity].
    - destruct (add_outputs idx name (S k) cid outs _ _) as [[o2 om2] cm2] eqn:E. inversion H; subst.
      destruct (IH _ _ _ _ _ _ _ _ _ E) as (H1 & H2 & H3 & H4).
      split; [|split; [|split]].
      + cbn [map length seq]. rewrite H1. reflexivity.
      + constructor; [reflexivity|exact H2].
      + intros q. destruct (H3 q) as [(j & Hj & Hq)|[Hn Hq]].
        * left. exists (S j). split; [exact Hj|]. rewrite Hq. f_equal. f_equal. lia.
        * cbn [map]. rewrite sget_sput in Hq. destruct (String.eqb_spec (aname o) q) as [<-|Hne].
          -- left. exists 0%nat. split; [reflexivity|]. rewrite Hq, Nat.add_0_r. reflexivity.
          -- right. split; [|exact Hq]. intros [Hx|Hx]; [exact (Hne Hx)|exact (Hn Hx)].
      + intros x id Hx. cbn [map]. destruct (H4 x id Hx) as [Hc|[Hc Hin]].
        * destruct cid as [cid|]; [|left; exact Hc]. rewrite sget_sput in Hc.
          destruct (String.eqb_spec (output_name name (N.of_nat k + 1)) x) as [<-|Hne].
          -- right. split; [congruence|]. left. reflexivity.
          -- left. exact Hc.
        * right. split; [exact Hc|]. right. exact Hin.
  Qed.

  Lemma add_ok s done (need : string -> Prop) (e ie : env) n xs ins vs (e0 e' : env) (need' : string -> Prop) t c :
    inv s done need e ie ->
    nname n = type_name t c -> In t node_types -> (c <= cur (g_count s) t)%N ->
    (forall k, ~ In (output_name (type_name t c) k) (outs_of (g_nodes s))) ->
    Forall2 (fun x a => aname a = san x /\ (x <> ""%string -> asrc a = VDynamic \/ asrc a = VConstant) /\ (x = ""%string -> asrc a = VOptional)) xs (noutputs n) ->
    incl xs (produced (pg_nodes g)) -> NoDup (filter nonempty xs) ->
    args_eval static ie (ninputs n) = Some ins ->
    sem (ntype n) (nattrs n) (length (noutputs n)) ins = Some vs ->
    bind e0 xs vs = Some e' ->
    (forall o, need' o -> need o) -> (forall o, need' o -> ~ In o xs -> e0 o = e o) ->
    (forall id, constant_data_id n = Some id -> exists v, static id = Some v /\ Forall (eq v) vs) ->
    exists n' ie', g_nodes (add_node s n) = g_nodes s ++ [n'] /\
      node_eval sem static ie n' = Some ie' /\ inv (add_node s n) (xs ++ done) need' e' ie'.
  Proof.
    intros I Hname Ht Hc Hfresh Houts Hxs Huniq Hargs Hsem Hbind Hneed He0 Hconst.
    unfold add_node.
    destruct (add_outputs (length (g_nodes s)) (nname n) 0 (constant_data_id n) (noutputs n) (g_outmap s) (g_cmap s))
      as [[outs' om'] cm'] eqn:E.
    destruct (add_outputs_ok _ _ _ _ _ _ _ _ _ _ E) as (H1 & H2 & H3 & H4).
    assert (Hnames : map aname (noutputs n) = map san xs).
    { clear -Houts. induction Houts as [|x a xs l [Hx _] _ IH]; [reflexivity|]. cbn. congruence. }
    assert (Hlen : length outs' = length (noutputs n)) by (symmetry; eapply Forall2_len; eassumption).
    assert (HxsU : incl xs U).
    { intros x Hx. unfold graph_names. rewrite !in_app_iff. right. right. left. apply Hxs, Hx. }
    exists (mkNode (ntype n) (nname n) (ninputs n) outs' (nattrs n)).
    assert (Hgoal : exists ie', node_eval sem static ie (mkNode (ntype n) (nname n) (ninputs n) outs' (nattrs n)) = Some ie' /\
      inv (mkS (g_nodes s ++ [mkNode (ntype n) (nname n) (ninputs n) outs' (nattrs n)])
      (g_inputs s) (g_outputs s) (g_inmap s) om' (g_store s) cm' (g_vinfo s) (g_outer s) (g_count s)) (xs ++ done) need' e' ie').
    { apply (add_gen s done need e ie _ xs ins vs e0 e' om' cm' need' t c); try assumption; try reflexivity; cbn [noutputs nname ninputs ntype nattrs].
      - rewrite H1, Hlen, Hname. reflexivity.
      - clear -Houts H2. revert outs' H2. induction Houts as [|x a xs l [_ [Hx _]] _ IH]; intros outs' H2; inversion H2; subst; constructor.
        + intros Hne. rewrite H1. apply Hx, Hne.
        + apply IH. assumption.
      - intros x Hx. left. intros Hin. exact (lg_inputs g legal x Hin (Hxs x Hx)).
      - rewrite Hlen. exact Hsem.
      - intros o Ho Hne. destruct (H3 (san o)) as [(j & Hj & Hq)|[Hn Hq]].
        + left. exists j. rewrite Hq. split; [|reflexivity]. rewrite Hnames, nth_error_map in Hj.
          destruct (nth_error xs j) as [x|] eqn:Ex; [|discriminate]. cbn in Hj. injection Hj as Hs.
          f_equal. apply (lg_apart g legal); [apply HxsU; eapply nth_error_In; eassumption|exact Ho|exact Hs].
        + right. split; [|exact Hq]. intros Hx. apply Hn. rewrite Hnames. apply in_map, Hx.
      - intros o Ho Hne Hq. destruct (H3 o) as [(j & Hj & _)|[Hn Hq']].
        + rewrite Hnames, nth_error_map in Hj. destruct (nth_error xs j) as [x|] eqn:Ex; [|discriminate]. cbn in Hj.
          assert (Hx : In x xs) by (eapply nth_error_In; eassumption). injection Hj as Hs.
          assert (Hsan : san o = san x) by (rewrite <- Hs; apply san_idem).
          destruct (H3 (san o)) as [(j' & _ & ->)|[Hn _]]; [discriminate|]. exfalso. apply Hn.
          rewrite Hnames, Hsan. apply in_map, Hx.
        + rewrite Hq' in Hq. pose proof (i_keep _ _ _ _ _ I o Ho Hne Hq) as Hk.
          destruct (H3 (san o)) as [(j' & _ & ->)|[_ ->]]; [discriminate|exact Hk].
      - intros ij Hq. destruct (H3 ""%string) as [(j & Hj & Hq2)|[_ <-]]; [|left; exact Hq].
        right. rewrite Hnames, nth_error_map in Hj. destruct (nth_error xs j) as [x|] eqn:Ex; [|discriminate]. cbn in Hj.
        injection Hj as Hs. assert (Hx : In x xs) by (eapply nth_error_In; eassumption).
        destruct (string_dec x "") as [->|Hne]; [|exfalso; exact (lg_san_nonempty g legal x (HxsU x Hx) Hne Hs)].
        assert (Hsrc : exists a, nth_error outs' j = Some a /\ asrc a = VOptional).
        { clear -Houts H2 Ex. revert j outs' H2 Ex. induction Houts as [|x a xs l [_ [_ Hx]] _ IH]; intros j outs' H2 Ex;
            [destruct j; discriminate|]. inversion H2 as [|? b ? bs Hb Hbs]; subst. destruct j as [|j]; cbn in Ex |- *.
          - injection Ex as ->. exists b. split; [reflexivity|]. rewrite Hb. auto.
          - eapply IH; eassumption. }
        destruct Hsrc as (a & Ha & Hoa). exists j, a. rewrite Hq2 in Hq. injection Hq as <-. auto.
      - intros k ij Hk. destruct (H3 k) as [(j & Hj & Hq)|[_ Hq]]; [|left; congruence].
        right. rewrite Hq in Hk. inversion Hk; subst. cbn. split; [reflexivity|].
        rewrite Hnames, nth_error_map in Hj. apply nth_error_Some. destruct (nth_error xs j); discriminate.
      - intros x id Hx. destruct (H4 x id Hx) as [Hx'|[Hcid Hin]]; [left; exact Hx'|]. right.
        destruct (Hconst id Hcid) as (v & Hv & Hall). apply In_nth_error in Hin. destruct Hin as [j Hj].
        exists j, v. split; [exact Hj|]. split; [|exact Hv].
        assert (Hjl : (j < length vs)%nat).
        { rewrite <- (bind_length _ _ _ _ Hbind). rewrite (Forall2_len _ _ _ Houts), <- Hlen, <- (map_length aname).
          apply nth_error_Some. congruence. }
        destruct (nth_error vs j) as [w|] eqn:Ew; [|apply nth_error_None in Ew; lia].
        apply nth_error_In in Ew. rewrite Forall_forall in Hall. rewrite (Hall w Ew). reflexivity. }
    destruct Hgoal as (ie' & G1 & G2). exists ie'. split; [reflexivity|]. split; [exact G1|exact G2].
  Qed.

  (** * One node *)
  Record frame (s s' : gstate) : Prop := {
    f_nodes : g_nodes s' = g_nodes s;
    f_inputs : g_inputs s' = g_inputs s;
    f_inmap : g_inmap s' = g_inmap s;
    f_outmap : g_outmap s' = g_outmap s;
    f_cmap : g_cmap s' = g_cmap s;
    f_outer : g_outer s' = g_outer s;
    f_count : forall u, (cur (g_count s) u <= cur (g_count s') u)%N
  }.

  Lemma frame_inv s s' done need e ie : frame s s' -> inv s done need e ie -> inv s' done need e ie.
  Proof. intros [E1 E2 E3 E4 E5 E6 Hc] I. eapply inv_count; eassumption. Qed.

  Lemma fresh_ok s done need e ie t c k : inv s done need e ie -> In t node_types ->
    (cur (g_count s) t < c)%N -> ~ In (output_name (type_name t c) k) (outs_of (g_nodes s)).
  Proof.
    intros I Ht Hc H. destruct (i_fresh _ _ _ _ _ I _ H) as (t' & c' & k' & Ht' & Hle & E).
    apply output_name_inj in E; [|apply type_name_no_us; assumption|apply type_name_no_us; assumption].
    destruct E as [E _]. apply type_name_inj in E; [|assumption|assumption]. destruct E as [-> ->]. lia.
  Qed.

  Lemma static_first ie n ins vs id : args_eval static ie (ninputs n) = Some ins ->
    sem (ntype n) (nattrs n) (length (noutputs n)) ins = Some vs -> constant_data_id n = Some id ->
    (ntype n = "Constant"%string -> (length ins <= 1)%nat) ->
    exists v, static id = Some v /\ Forall (eq v) vs.
  Proof.
    intros Ha Hs Hc Hl. unfold constant_data_id in Hc.
    destruct (String.eqb_spec (ntype n) "Constant") as [Ht|]; [|discriminate].
    destruct (ninputs n) as [|a l]; [discriminate|]. destruct (asrc a) as [id'| | |] eqn:Es; try discriminate.
    inversion Hc; subst id'. cbn in Ha. unfold arg_eval in Ha. rewrite Es in Ha.
    destruct (static id) as [v|]; [|discriminate]. cbn in Ha.
    destruct (args_eval static ie l) as [ws|] eqn:El; [|discriminate]. inversion Ha; subst.
    specialize (Hl Ht). cbn in Hl. destruct ws; [|cbn in Hl; lia].
    exists v. split; [reflexivity|]. unfold ir_sem in Hs. rewrite Ht in Hs. cbn in Hs. inversion Hs; subst.
    constructor; [reflexivity|constructor].
  Qed.

  Lemma finish s s5 done (need : string -> Prop) (e ie : env) n5 n6 xs ins vs (e0 e' : env) (need' : string -> Prop) t c :
    inv s done need e ie -> frame s s5 ->
    nname n5 = type_name t c -> In t node_types -> (cur (g_count s) t < c <= cur (g_count s5) t)%N ->
    Forall2 (fun x a => aname a = san x /\ (x <> ""%string -> asrc a = VDynamic \/ asrc a = VConstant) /\ (x = ""%string -> asrc a = VOptional)) xs (noutputs n5) ->
    incl xs (produced (pg_nodes g)) -> NoDup (filter nonempty xs) ->
    args_eval static ie (ninputs n5) = Some ins ->
    sem (ntype n5) (nattrs n5) (length (noutputs n5)) ins = Some vs ->
    bind e0 xs vs = Some e' ->
    (forall o, need' o -> need o) -> (forall o, need' o -> ~ In o xs -> e0 o = e o) ->
    (ntype n5 = "Constant"%string -> (length ins <= 1)%nat) ->
    lift_node lift s5 n5 = Some n6 ->
    exists n' ie', g_nodes (add_node s5 n6) = g_nodes s ++ [n'] /\
      node_eval sem static ie n' = Some ie' /\ inv (add_node s5 n6) (xs ++ done) need' e' ie'.
  Proof.
    intros I F Hn Ht Hc Houts Hxs Hu Ha Hs Hb Hneed He0 Hcl Hl.
    pose proof (frame_inv _ _ _ _ _ _ F I) as I5. unfold lift_node in Hl.
    destruct (lift_all s5 (ninputs n5) (lift n5)) as [l|] eqn:El; [|discriminate]. cbn in Hl. inversion Hl; subst n6.
    pose proof (lift_all_ok _ _ _ _ _ I5 _ _ _ _ Ha El) as Ha'.
    rewrite <- (f_nodes _ _ F).
    eapply (add_ok s5 done need e ie _ xs ins vs e0 e' need' t c I5); try eassumption.
    - apply Hc.
    - intros k. rewrite (f_nodes _ _ F). eapply fresh_ok; [exact I|exact Ht|apply Hc].
    - intros id Hid. exact (static_first ie (mkNode (ntype n5) (nname n5) l (noutputs n5) (nattrs n5)) ins vs id Ha' Hs Hid Hcl).
  Qed.

  Lemma rename_frame s n s' n' : rename_node s n = (s', n') ->
    frame s s' /\ nname n' = type_name (ntype n) (cur (g_count s) (ntype n) + 1) /\
    ntype n' = ntype n /\ ninputs n' = ninputs n /\ noutputs n' = noutputs n /\ nattrs n' = nattrs n /\
    cur (g_count s') (ntype n) = (cur (g_count s) (ntype n) + 1)%N.
  Proof.
    unfold rename_node, generate_node_name. intros H. inversion H; subst. cbn.
    rewrite bump_cur.
    assert (Hcur : forall u, cur (set_counter (g_count s) (ntype n) (cur (g_count s) (ntype n) + 1)) u =
      if String.eqb (ntype n) u then (cur (g_count s) (ntype n) + 1)%N else cur (g_count s) u).
    { intros u. unfold cur at 1. rewrite counter_set. destruct (String.eqb (ntype n) u); reflexivity. }
    split; [split; try reflexivity|].
    - intros u. cbn. rewrite Hcur. destruct (String.eqb_spec (ntype n) u) as [<-|]; lia.
    - rewrite Hcur, String.eqb_refl. auto 10.
  Qed.

  Lemma frame_trans s1 s2 s3 : frame s1 s2 -> frame s2 s3 -> frame s1 s3.
  Proof.
    intros [A1 A2 A3 A4 A5 A6 A7] [B1 B2 B3 B4 B5 B6 B7]. split; try congruence.
    intros u. specialize (A7 u). specialize (B7 u). lia.
  Qed.
  Lemma frame_refl s : frame s s.
  Proof. split; reflexivity. Qed.

  Lemma parse_ok op t : parse_type op = Some t -> In t node_types /\ lower t = lower op.
  Proof.
    unfold parse_type. intros H. apply find_some in H. destruct H as [H1 H2]. split; [exact H1|].
    apply String.eqb_eq. exact H2.
  Qed.

  Lemma proto_outputs_ok s xs : incl xs U ->
    Forall2 (fun x a => aname a = san x /\ (x <> ""%string -> asrc a = VDynamic \/ asrc a = VConstant) /\ (x = ""%string -> asrc a = VOptional))
      xs (map (proto_output s) xs).
  Proof.
    induction xs as [|x xs IH]; intros H; cbn; constructor.
    - assert (Hs : x <> ""%string -> (if String.eqb (san x) "" then VOptional else VDynamic) = VDynamic).
      { intros Hne. destruct (String.eqb_spec (san x) "") as [E|]; [|reflexivity].
        exfalso. exact (lg_san_nonempty g legal x (H x (or_introl eq_refl)) Hne E). }
      assert (Hs0 : x = ""%string -> (if String.eqb (san x) "" then VOptional else VDynamic) = VOptional) by (intros ->; reflexivity).
      unfold proto_output. destruct (find _ _); [|destruct (sget (g_vinfo s) x)]; cbn; (split; [reflexivity|]); (split; [intros Hne; left; exact (Hs Hne)|exact Hs0]).
    - apply IH. intros y Hy. apply H. right. exact Hy.
  Qed.

  Lemma node_unique p : In p (pg_nodes g) -> NoDup (filter nonempty (p_out p)).
  Proof.
    intros Hp. pose proof (lg_unique g legal) as Hn. apply NoDup_app_r in Hn. change (fun x => negb (String.eqb x "")) with nonempty in Hn.
    apply in_split in Hp. destruct Hp as (l1 & l2 & E). rewrite E in Hn. unfold produced in Hn.
    rewrite flat_map_app in Hn. cbn in Hn. rewrite !filter_app in Hn. apply NoDup_app_r, NoDup_app_l in Hn. exact Hn.
  Qed.

  Lemma has_value_in s x : has_value s x = true -> In x (outs_of (g_nodes s)).
  Proof.
    unfold has_value. intros H. apply existsb_exists in H. destruct H as (n & Hn & H).
    apply andb_true_iff in H. destruct H as [_ H]. apply existsb_exists in H. destruct H as (o & Ho & H).
    apply String.eqb_eq in H. subst x. unfold outs_of. apply in_flat_map. exists n. split; [exact Hn|].
    apply in_map, Ho.
  Qed.

  Lemma legal_in p x : In p (pg_nodes g) -> In x (p_in p) -> In x (consumed (pg_nodes g)).
  Proof. intros Hp Hx. apply in_flat_map. exists p. split; assumption. Qed.
  Lemma legal_out p x : In p (pg_nodes g) -> In x (p_out p) -> In x (produced (pg_nodes g)).
  Proof. intros Hp Hx. apply in_flat_map. exists p. split; assumption. Qed.
  Lemma consumed_U x : In x (consumed (pg_nodes g)) -> In x U.
  Proof. intros H. unfold graph_names. rewrite !in_app_iff. tauto. Qed.
  Lemma produced_U x : In x (produced (pg_nodes g)) -> In x U.
  Proof. intros H. unfold graph_names. rewrite !in_app_iff. tauto. Qed.

  Lemma by_dims_ok base upto k t : by_dims base upto k = Some t -> (upto <= 3)%N ->
    k = 1%N /\ t = (base ++ "1d")%string \/ k = 2%N /\ t = (base ++ "2d")%string \/
    k = 3%N /\ (3 <= upto)%N /\ t = (base ++ "3d")%string.
  Proof.
    unfold by_dims. intros H Hu. destruct ((1 <=? k) && (k <=? upto))%N%bool eqn:E; [|discriminate].
    inversion H; subst. assert (Hk : k = 1%N \/ k = 2%N \/ k = 3%N) by lia.
    destruct Hk as [-> |[-> | ->]]; [left|right; left|right; right]; repeat split; try reflexivity. lia.
  Qed.

  (** The specialised variants mean what the operator means. *)
  Lemma remap_ok n n2 : remap_node_type n = Some n2 -> In (ntype n) node_types ->
    ~ In (lower (ntype n)) ["conv1d"; "conv2d"; "conv3d"; "convtranspose1d"; "convtranspose2d"; "convtranspose3d";
       "maxpool1d"; "maxpool2d"; "averagepool1d"; "averagepool2d"; "linear"]%string ->
    ntype n <> "Constant"%string ->
    In (ntype n2) node_types /\ ninputs n2 = ninputs n /\ noutputs n2 = noutputs n /\ nattrs n2 = nattrs n /\
    ntype n2 <> "Constant"%string /\ ntype n2 <> "Linear"%string /\
    (n2 = n \/ (ntype n2 <> "Gemm" /\ ntype n2 <> "MatMul"))%string /\
    (forall attrs k ins, sem (ntype n2) attrs k ins = osem (lower (ntype n)) attrs k ins).
  Proof.
    intros H Ht Hl Hc. unfold remap_node_type in H.
    assert (Hvar : forall base upto, ntype n = base -> (upto <= 3)%N ->
      match spatial_dims n with Some k => option_map (set_type n) (by_dims (ntype n) upto k) | None => None end = Some n2 ->
      exists k t, (k = 1 /\ t = base ++ "1d" \/ k = 2 /\ t = base ++ "2d" \/ k = 3 /\ 3 <= upto /\ t = base ++ "3d")%string%N /\
        n2 = set_type n t).
    { intros base upto E Hu Hd. destruct (spatial_dims n) as [k|]; [|discriminate].
      destruct (by_dims (ntype n) upto k) as [t|] eqn:Eb; [|discriminate]. cbn in Hd. inversion Hd.
      exists k, t. split; [|reflexivity]. rewrite <- E. eapply by_dims_ok; eassumption. }
    destruct (String.eqb_spec (ntype n) "Conv") as [E|N1].
    { destruct (Hvar _ _ E (N.le_refl 3) H) as (k & t & Hk & ->). cbn [set_type ntype ninputs noutputs nattrs]. rewrite E.
      destruct Hk as [[_ ->]|[[_ ->]|(_ & _ & ->)]]; cbn [append];
        (split; [apply mem_str_In; vm_compute; reflexivity|]); repeat (split; [reflexivity|]);
        repeat (split; [discriminate|]); (split; [right; split; discriminate|]); reflexivity. }
    destruct (String.eqb_spec (ntype n) "ConvTranspose") as [E|N2].
    { destruct (Hvar _ _ E (N.le_refl 3) H) as (k & t & Hk & ->). cbn [set_type ntype ninputs noutputs nattrs]. rewrite E.
      destruct Hk as [[_ ->]|[[_ ->]|(_ & _ & ->)]]; cbn [append];
        (split; [apply mem_str_In; vm_compute; reflexivity|]); repeat (split; [reflexivity|]);
        repeat (split; [discriminate|]); (split; [right; split; discriminate|]); reflexivity. }
    destruct (String.eqb_spec (ntype n) "MaxPool") as [E|N3].
    { destruct (Hvar _ 2%N E ltac:(lia) H) as (k & t & Hk & ->). cbn [set_type ntype ninputs noutputs nattrs]. rewrite E.
      destruct Hk as [[_ ->]|[[_ ->]|(_ & Hlt & ->)]]; cbn [append]; [| |lia];
        (split; [apply mem_str_In; vm_compute; reflexivity|]); repeat (split; [reflexivity|]);
        repeat (split; [discriminate|]); (split; [right; split; discriminate|]); reflexivity. }
    destruct (String.eqb_spec (ntype n) "AveragePool") as [E|N4].
    { destruct (Hvar _ 2%N E ltac:(lia) H) as (k & t & Hk & ->). cbn [set_type ntype ninputs noutputs nattrs]. rewrite E.
      destruct Hk as [[_ ->]|[[_ ->]|(_ & Hlt & ->)]]; cbn [append]; [| |lia];
        (split; [apply mem_str_In; vm_compute; reflexivity|]); repeat (split; [reflexivity|]);
        repeat (split; [discriminate|]); (split; [right; split; discriminate|]); reflexivity. }
    inversion H; subst n2. split; [exact Ht|]. do 3 (split; [reflexivity|]). split; [exact Hc|].
    assert (HL : ntype n <> "Linear"%string).
    { intros E. apply Hl. rewrite E. cbn. tauto. }
    split; [exact HL|]. split; [left; reflexivity|]. intros attrs k ins. unfold ir_sem.
    destruct (String.eqb_spec (ntype n) "Constant"); [contradiction|].
    destruct (String.eqb_spec (ntype n) "Linear"); [contradiction|]. f_equal.
    unfold onnx_name.
    assert (Hm : forall l, (forall x, In x l -> In (lower x) ["conv1d"; "conv2d"; "conv3d"; "convtranspose1d"; "convtranspose2d"; "convtranspose3d";
       "maxpool1d"; "maxpool2d"; "averagepool1d"; "averagepool2d"; "linear"]%string) -> mem_str (ntype n) l = false).
    { intros l Hx. destruct (mem_str (ntype n) l) eqn:E; [|reflexivity]. apply mem_str_In in E.
      exfalso. apply Hl, Hx, E. }
    rewrite !Hm; [reflexivity| | | |]; intros x Hx; cbn in Hx;
      repeat (destruct Hx as [<-|Hx]; [cbn; tauto|]); destruct Hx.
  Qed.

  Definition need (l : list pnode) (o : string) : Prop := In o (consumed l) \/ In o (map fst (pg_out g)).
  Definition prefix {A} (a b : list A) : Prop := exists l, b = a ++ l.

  Lemma prefix_static store a id : prefix (store ++ [a]) final -> id = N.of_nat (length store) -> static id = Some (cval a).
  Proof.
    intros [l E] ->. unfold static_of. rewrite Nnat.Nat2N.id, E, <- app_assoc.
    rewrite nth_error_app2, Nat.sub_diag by lia. reflexivity.
  Qed.

  Lemma need_tail p l o : need l o -> need (p :: l) o.
  Proof. intros [H|H]; [left|right; exact H]. cbn. apply in_app_iff. right. exact H. Qed.

  (** A Constant node. *)
  Lemma step_constant s p rest done e ie e1 ins0 s1 n1 n2 s3 n3 n6 :
    In p (pg_nodes g) -> inv s done (need (p :: rest)) e ie ->
    lower (p_op p) = "constant"%string ->
    all_some (map (init_in s) (p_in p)) = Some ins0 ->
    extract_constant tinfo s (mkNode "Constant" "" ins0 (map (proto_output s) (p_out p)) (p_attrs p)) = (s1, n1) ->
    n2 = n1 -> rename_node s1 n2 = (s3, n3) -> lift_node lift s3 n3 = Some n6 ->
    prefix (g_store s1) final -> o_node osem e p = Some e1 ->
    exists n' ie', g_nodes (add_node s3 n6) = g_nodes s ++ [n'] /\ node_eval sem static ie n' = Some ie' /\
      inv (add_node s3 n6) (p_out p ++ done) (need rest) e1 ie'.
  Proof.
    intros Hp I Hop Hins Hext -> Hren Hlift Hpre Hon.
    destruct (lg_nodes g legal p Hp) as (_ & Hleg & _). destruct (Hleg Hop) as (Hin & (x0 & Hout1 & Hx0) & k & a & Hattr).
    assert (Hlen : length (p_out p) = 1%nat) by (rewrite Hout1; reflexivity).
    rewrite Hin in Hins. cbn in Hins. inversion Hins; subst ins0.
    unfold o_node in Hon. rewrite Hin, Hop, Hattr, Hlen in Hon. cbn [o_inputs] in Hon.
    destruct (osem "constant" [(k, a)] 1 []) as [vs|] eqn:Evs; [|discriminate].
    assert (HoutU : incl (p_out p) U) by (intros x Hx; apply produced_U; eapply legal_out; eassumption).
    pose proof (proto_outputs_ok s (p_out p) HoutU) as Houts.
    assert (Hcase :
      (s1 = s /\ n1 = mkNode "Constant" "" [] (map (proto_output s) (p_out p)) (p_attrs p)) \/
      (exists ty, is_data a /\ s1 = set_store s (g_store s ++ [a]) /\
         n1 = mkNode "Constant" "" [mkArg "" ty (VStatic (N.of_nat (length (g_store s))))]
                (match map (proto_output s) (p_out p) with [] => [] | o :: r => mkArg (aname o) ty VConstant :: r end) [])).
    { unfold extract_constant in Hext. cbn [nattrs ninputs noutputs ntype nname] in Hext. rewrite Hattr in Hext |- *.
      destruct (find _ const_keys) as [k'|]; [|left; inversion Hext; split; reflexivity].
      destruct (sget [(k, a)] k') as [a'|] eqn:Eg; [|left; inversion Hext; split; reflexivity].
      cbn in Eg. destruct (String.eqb_spec k k') as [<-|]; [|discriminate]. inversion Eg; subst a'.
      destruct (const_ty tinfo a) as [ty|] eqn:Ety; [|left; inversion Hext; split; reflexivity].
      right. exists ty. split; [destruct a; try discriminate Ety; exact Logic.I|].
      cbn [app] in Hext. unfold sremove in Hext. cbn in Hext. rewrite String.eqb_refl in Hext. cbn in Hext.
      inversion Hext. split; reflexivity. }
    assert (F1 : frame s s1).
    { destruct Hcase as [[-> _]|(ty & _ & -> & _)]; [apply frame_refl|]. split; reflexivity. }
    assert (Hc1 : g_count s1 = g_count s).
    { destruct Hcase as [[-> _]|(ty & _ & -> & _)]; reflexivity. }
    destruct (rename_frame _ _ _ _ Hren) as (F2 & Hname & Ht & Hi & Ho & Ha & Hcur).
    assert (Ety : ntype n1 = "Constant"%string).
    { destruct Hcase as [[_ ->]|(ty & _ & _ & ->)]; reflexivity. }
    rewrite Ety, Hc1 in *.
    set (insv := match ninputs n1 with [] => [] | _ => [Some (cval a)] end).
    apply (finish s s3 done (need (p :: rest)) e ie n3 n6 (p_out p) insv vs e e1 (need rest) "Constant"
             (cur (g_count s) "Constant" + 1)); try assumption.
    - eapply frame_trans; eassumption.
    - apply mem_str_In. vm_compute. reflexivity.
    - rewrite Hcur. lia.
    - rewrite Ho. destruct Hcase as [[_ ->]|(ty & _ & _ & ->)]; [exact Houts|]. cbn [noutputs].
      rewrite Hout1 in Houts |- *. inversion Houts as [|x o xs os [Hx _] Htl]; subst. cbn. constructor; [|exact Htl]. cbn.
      split; [exact Hx|]. split; [auto|]. intros E. contradiction.
    - intros x Hx. eapply legal_out; eassumption.
    - apply node_unique. exact Hp.
    - rewrite Hi. unfold insv. destruct Hcase as [[_ ->]|(ty & _ & -> & ->)]; [reflexivity|]. cbn [ninputs args_eval].
      unfold arg_eval. cbn [asrc]. rewrite (prefix_static (g_store s) a); [reflexivity|exact Hpre|reflexivity].
    - rewrite Ht, Ha, Ho. unfold insv. unfold ir_sem. cbn [String.eqb Ascii.eqb Bool.eqb].
      destruct Hcase as [[_ ->]|(ty & Hd & _ & ->)]; cbn [ninputs noutputs nattrs].
      + rewrite Hattr, map_length, Hlen. exact Evs.
      + rewrite (law_const osem cval laws k a Hd) in Evs. inversion Evs. reflexivity.
    - intros o. apply need_tail.
    - intros o _ _. reflexivity.
    - intros _. unfold insv. destruct (ninputs n1); cbn; lia.
  Qed.

  (** A node that is not fused: [n4] is the node after coalescing. *)
  Lemma step_single s p rest done e ie e1 ins0 vs t0 n2 s3 n3 n4 s5 n5 n6 :
    In p (pg_nodes g) -> inv s done (need (p :: rest)) e ie ->
    all_some (map (init_in s) (p_in p)) = Some ins0 ->
    ninputs n2 = ins0 -> noutputs n2 = map (proto_output s) (p_out p) ->
    In (ntype n2) node_types -> rename_node s n2 = (s3, n3) ->
    ninputs n4 = ninputs n3 -> noutputs n4 = noutputs n3 -> nname n4 = nname n3 ->
    In (ntype n4) node_types -> ntype n4 <> "Constant"%string ->
    (if String.eqb (ntype n4) (ntype n3) then (s3, n4) else rename_node s3 n4) = (s5, n5) ->
    lift_node lift s5 n5 = Some n6 ->
    o_inputs e (p_in p) = Some vs ->
    (forall outs, osem t0 (p_attrs p) (length (p_out p)) vs = Some outs ->
       sem (ntype n4) (nattrs n4) (length (p_out p)) vs = Some outs) ->
    t0 = lower (p_op p) -> o_node osem e p = Some e1 ->
    exists n' ie', g_nodes (add_node s5 n6) = g_nodes s ++ [n'] /\ node_eval sem static ie n' = Some ie' /\
      inv (add_node s5 n6) (p_out p ++ done) (need rest) e1 ie'.
  Proof.
    intros Hp I Hins Hi2 Ho2 Ht2 Hren Hi4 Ho4 Hn4 Ht4 Hnc Hren2 Hlift Hvs Hsem -> Hon.
    unfold o_node in Hon. rewrite Hvs in Hon.
    destruct (osem (lower (p_op p)) (p_attrs p) (length (p_out p)) vs) as [outs|] eqn:Eo; [|discriminate].
    specialize (Hsem outs eq_refl).
    destruct (rename_frame _ _ _ _ Hren) as (F2 & Hname & Ht & Hi & Ho & Ha & Hcur).
    assert (HoutU : incl (p_out p) U) by (intros x Hx; apply produced_U; eapply legal_out; eassumption).
    pose proof (proto_outputs_ok s (p_out p) HoutU) as Houts.
    assert (Hargs : args_eval static ie ins0 = Some vs).
    { eapply (inputs_ok s done (need (p :: rest)) e ie I (p_in p)); try eassumption.
      - intros x Hx. eapply legal_in; eassumption.
      - intros x Hx. left. cbn. apply in_app_iff. left. exact Hx. }
    assert (H5 : exists t c, nname n5 = type_name t c /\ In t node_types /\ frame s s5 /\
      (cur (g_count s) t < c <= cur (g_count s5) t)%N /\ ntype n5 = ntype n4 /\ ninputs n5 = ninputs n4 /\
      noutputs n5 = noutputs n4 /\ nattrs n5 = nattrs n4).
    { destruct (String.eqb_spec (ntype n4) (ntype n3)) as [E|E].
      - inversion Hren2; subst s5 n5. exists (ntype n2), (cur (g_count s) (ntype n2) + 1)%N.
        rewrite Hn4. split; [exact Hname|]. split; [exact Ht2|]. split; [exact F2|]. rewrite Hcur.
        split; [lia|]. auto.
      - destruct (rename_frame _ _ _ _ Hren2) as (F3 & Hname' & Ht' & Hi' & Ho' & Ha' & Hcur').
        exists (ntype n4), (cur (g_count s3) (ntype n4) + 1)%N. split; [exact Hname'|]. split; [exact Ht4|].
        split; [eapply frame_trans; eassumption|]. rewrite Hcur'. pose proof (f_count _ _ F2 (ntype n4)).
        split; [lia|]. auto. }
    destruct H5 as (t & c & Hn5 & Ht5 & F5 & Hc5 & E5 & Ei5 & Eo5 & Ea5).
    apply (finish s s5 done (need (p :: rest)) e ie n5 n6 (p_out p) vs outs e e1 (need rest) t c); try assumption.
    - rewrite Eo5, Ho4, Ho, Ho2. exact Houts.
    - intros x Hx. eapply legal_out; eassumption.
    - apply node_unique. exact Hp.
    - rewrite Ei5, Hi4, Hi, Hi2. exact Hargs.
    - rewrite E5, Ea5, Eo5, Ho4, Ho, Ho2, map_length. exact Hsem.
    - intros o. apply need_tail.
    - intros o _ _. reflexivity.
    - intros E. congruence.
  Qed.

  Lemma type_of_lower t u : In t node_types -> In u node_types -> lower t = lower u -> t = u.
  Proof.
    assert (Hchk : forallb (fun t => forallb (fun u => implb (String.eqb (lower t) (lower u)) (String.eqb t u)) node_types) node_types = true)
      by (vm_compute; reflexivity).
    intros Ht Hu E. rewrite forallb_forall in Hchk. specialize (Hchk t Ht). rewrite forallb_forall in Hchk.
    specialize (Hchk u Hu). rewrite E, String.eqb_refl in Hchk. cbn in Hchk. apply String.eqb_eq. exact Hchk.
  Qed.

  Lemma linear_type : In "Linear"%string node_types.
  Proof. apply mem_str_In. vm_compute. reflexivity. Qed.

  (** Gemm: either left alone or turned into Linear. *)
  Lemma gemm_ok n4 n3 p : convert_gemm_to_linear n3 = Some n4 -> ntype n3 = "Gemm"%string ->
    nattrs n3 = p_attrs p -> legal_node p -> lower (p_op p) = "gemm"%string ->
    ninputs n4 = ninputs n3 /\ noutputs n4 = noutputs n3 /\ nname n4 = nname n3 /\
    In (ntype n4) node_types /\ ntype n4 <> "Constant"%string /\
    forall k vs, sem (ntype n4) (nattrs n4) k vs = osem "gemm" (p_attrs p) k vs.
  Proof.
    intros H Et Ea Hl Hop. destruct Hl as (_ & _ & _ & _ & Hg).
    destruct (Hg Hop) as (al & be & ta & tb & Hattr & Hta). clear Hg.
    unfold convert_gemm_to_linear in H. destruct (noutputs n3) as [|o [|]] eqn:Eo; try discriminate.
    assert (Hsame : n4 = n3 -> ninputs n4 = ninputs n3 /\ noutputs n4 = [o] /\ nname n4 = nname n3 /\
       In (ntype n4) node_types /\ ntype n4 <> "Constant"%string /\
       forall k vs, sem (ntype n4) (nattrs n4) k vs = osem "gemm" (p_attrs p) k vs).
    { intros ->. rewrite Et, Ea, Eo. do 3 (split; [reflexivity|]). split; [apply mem_str_In; vm_compute; reflexivity|].
      split; [discriminate|]. reflexivity. }
    destruct (is_int (get_attr n3 "transA") 1) eqn:E1; [inversion H; subst; exact (Hsame eq_refl)|].
    destruct (is_one (get_attr n3 "alpha") && is_one (get_attr n3 "beta") && is_int (get_attr n3 "transB") 1)%bool eqn:E2;
      [|inversion H; subst; exact (Hsame eq_refl)].
    inversion H; subst n4. cbn [ninputs noutputs nname ntype nattrs].
    do 3 (split; [reflexivity|]). split; [exact linear_type|]. split; [discriminate|].
    unfold get_attr in E1, E2. rewrite Ea, Hattr in *.
    apply andb_true_iff in E2. destruct E2 as [E2 E4]. apply andb_true_iff in E2. destruct E2 as [E2 E3].
    unfold gemm_attrs in *.
    destruct al as [al|], be as [be|], ta as [ta|], tb as [tb|]; cbn in E1, E2, E3, E4; try discriminate.
    - apply N.eqb_eq in E2, E3. apply Z.eqb_eq in E4. apply Z.eqb_neq in E1.
      destruct Hta as [?|[E|E]]; [discriminate| |]; inversion E; subst; [|congruence].
      intros k vs. reflexivity.
    - apply N.eqb_eq in E2, E3. apply Z.eqb_eq in E4. subst. intros k vs. cbn.
      symmetry. exact (law_gemm osem cval laws k vs).
  Qed.

  (** MatMul that stays alone. *)
  Lemma matmul_alone s n3 n4 rest p : convert_matmul_to_linear s n3 rest = Some (n4, false) -> ntype n3 = "MatMul"%string ->
    nattrs n3 = p_attrs p -> legal_node p -> lower (p_op p) = "matmul"%string ->
    ninputs n4 = ninputs n3 /\ noutputs n4 = noutputs n3 /\ nname n4 = nname n3 /\
    In (ntype n4) node_types /\ ntype n4 <> "Constant"%string /\
    forall k vs, length vs = length (ninputs n3) -> sem (ntype n4) (nattrs n4) k vs = osem "matmul" (p_attrs p) k vs.
  Proof.
    intros H Et Ea Hl Hop. destruct Hl as (_ & _ & Hm & _). destruct (Hm Hop) as [Hattr _]. clear Hm.
    unfold convert_matmul_to_linear in H. destruct (ninputs n3) as [|a [|w [|]]] eqn:Ei; try discriminate.
    assert (Hsame : n4 = n3 -> ninputs n4 = [a; w] /\ noutputs n4 = noutputs n3 /\ nname n4 = nname n3 /\
       In (ntype n4) node_types /\ ntype n4 <> "Constant"%string /\
       forall k vs, length vs = length [a; w] -> sem (ntype n4) (nattrs n4) k vs = osem "matmul" (p_attrs p) k vs).
    { intros ->. rewrite Et, Ea, Ei. do 3 (split; [reflexivity|]). split; [apply mem_str_In; vm_compute; reflexivity|].
      split; [discriminate|]. reflexivity. }
    assert (Hlin : n4 = set_type n3 "Linear" -> ninputs n4 = [a; w] /\ noutputs n4 = noutputs n3 /\ nname n4 = nname n3 /\
       In (ntype n4) node_types /\ ntype n4 <> "Constant"%string /\
       forall k vs, length vs = length [a; w] -> sem (ntype n4) (nattrs n4) k vs = osem "matmul" (p_attrs p) k vs).
    { intros ->. cbn [set_type ninputs noutputs nname ntype nattrs]. rewrite Ei. do 3 (split; [reflexivity|]).
      split; [exact linear_type|]. split; [discriminate|]. intros k vs Hlen. rewrite Ea, Hattr.
      destruct vs as [|x [|y [|]]]; cbn in Hlen; try lia. reflexivity. }
    destruct (negb (has_value s (aname w))); [inversion H; subst; apply Hsame; reflexivity|].
    destruct (aty w) as [| | |t]; try (inversion H; subst; apply Hsame; reflexivity).
    destruct (negb (tt_rank t =? 2)%N); [inversion H; subst; apply Hsame; reflexivity|].
    destruct rest as [|q rest]; [inversion H; subst; apply Hlin; reflexivity|].
    destruct (convert_node_proto s q) as [peek|]; [|discriminate].
    destruct (noutputs (set_type n3 "Linear")) as [|x xs].
    - destruct (_ && _)%bool; [discriminate|]. inversion H; subst; apply Hlin; reflexivity.
    - destruct (is_add_with_bias s peek (aname x)); [destruct (add_bias peek _); discriminate|].
      inversion H; subst; apply Hlin; reflexivity.
  Qed.

  (** What the fusion of MatMul and Add found. *)
  Lemma matmul_fused s n3 n4 rest : convert_matmul_to_linear s n3 rest = Some (n4, true) ->
    exists q rest' a w ia ib x xr y yr, rest = q :: rest' /\ ninputs n3 = [a; w] /\ noutputs n3 = x :: xr /\
      parse_type (p_op q) = Some "Add"%string /\ all_some (map (init_in s) (p_in q)) = Some [ia; ib] /\
      map (proto_output s) (p_out q) = y :: yr /\
      (aname ia = aname x /\ has_value s (aname ib) = true /\
         n4 = mkNode "Linear" (nname n3) [a; w; ib] (mkArg (aname y) (aty x) (asrc x) :: xr) (nattrs n3) \/
       aname ib = aname x /\ aname ia <> aname x /\ has_value s (aname ia) = true /\
         n4 = mkNode "Linear" (nname n3) [a; w; ia] (mkArg (aname y) (aty x) (asrc x) :: xr) (nattrs n3) \/
       aname ib = aname x /\ aname ia = aname x /\ has_value s (aname ia) = true).
  Proof.
    intros H. unfold convert_matmul_to_linear in H. destruct (ninputs n3) as [|a [|w [|]]] eqn:Ei; try discriminate.
    destruct (negb (has_value s (aname w))); [discriminate|].
    destruct (aty w) as [| | |t]; try discriminate.
    destruct (negb (tt_rank t =? 2)%N); [discriminate|].
    destruct rest as [|q rest]; [discriminate|].
    destruct (convert_node_proto s q) as [peek|] eqn:Ep; [|discriminate].
    cbn [set_type noutputs] in H. destruct (noutputs n3) as [|x xs] eqn:Eo.
    { destruct (_ && _)%bool; discriminate. }
    destruct (is_add_with_bias s peek (aname x)) eqn:Ea; [|discriminate].
    unfold convert_node_proto in Ep. destruct (parse_type (p_op q)) as [t0|] eqn:Ept; [|discriminate].
    destruct (all_some (map (init_in s) (p_in q))) as [ins|] eqn:Eai; [|discriminate]. inversion Ep; subst peek. clear Ep.
    unfold is_add_with_bias in Ea. cbn [ninputs ntype] in Ea.
    destruct ins as [|ia [|ib [|]]]; try discriminate. apply andb_true_iff in Ea. destruct Ea as [Et Ea].
    apply String.eqb_eq in Et. subst t0.
    unfold add_bias in H. cbn [ninputs noutputs ntype nname nattrs set_type] in H. rewrite ?Ei, ?Eo in H.
    destruct (map (proto_output s) (p_out q)) as [|y yr] eqn:Ey; [discriminate|]. cbn in H. inversion H as [Hn4]. clear H.
    exists q, rest, a, w, ia, ib, x, xs, y, yr. do 2 (split; [reflexivity || assumption|]). split; [reflexivity || assumption|].
    split; [exact Ept|]. split; [exact Eai|]. split; [exact Ey|].
    destruct (String.eqb_spec (aname ia) (aname x)) as [E|E].
    - cbn in Ea. apply orb_true_iff in Ea. destruct Ea as [Ea|Ea].
      + left. auto.
      + apply andb_true_iff in Ea. destruct Ea as [E1 E2]. apply String.eqb_eq in E1. right. right. auto.
    - cbn in Ea. apply andb_true_iff in Ea. destruct Ea as [E1 E2]. apply String.eqb_eq in E1. right. left. auto.
  Qed.

  (** The argument for a name carries the name of a MatMul result only if it
      is that name. *)
  Lemma name_is s done nd e ie o m a : inv s done nd e ie -> In o (consumed (pg_nodes g)) ->
    In m (produced (pg_nodes g)) -> m <> ""%string -> init_in s o = Some a -> aname a = san m ->
    o = m /\ o <> ""%string /\ asrc a = VDynamic.
  Proof.
    intros I Ho Hm Hmn Ha Hn. pose proof (consumed_U o Ho) as HoU. pose proof (produced_U m Hm) as HmU.
    destruct (string_dec o "") as [->|Hne].
    - exfalso. destruct (init_in_empty _ _ _ _ _ I) as (b & Eb & Hs & Hb). rewrite Eb in Ha. inversion Ha; subst.
      destruct Hb as [Hb|Hb].
      + rewrite Hb in Hn. exact (lg_san_nonempty g legal m HmU Hmn (eq_sym Hn)).
      + apply (lg_not_generated g legal m HmU). rewrite <- Hn.
        destruct (i_fresh _ _ _ _ _ I _ Hb) as (t & c & k & Ht & _ & E). exists t, c, k. auto.
    - destruct (init_in_names _ _ _ _ _ _ _ I HoU Hne Ha) as [[Hn' Hd]|Hin].
      + rewrite Hn' in Hn. split; [exact (lg_apart g legal o m HoU HmU Hn)|]. auto.
      + exfalso. apply (lg_not_generated g legal m HmU). rewrite <- Hn.
        destruct (i_fresh _ _ _ _ _ I _ Hin) as (t & c & k & Ht & _ & E). exists t, c, k. auto.
  Qed.

  Lemma step_fused pre s p q rest done e ie e1 e2 ins0 s3 n3 n4 s5 n5 n6 :
    pg_nodes g = pre ++ p :: q :: rest -> inv s done (need (p :: q :: rest)) e ie ->
    lower (p_op p) = "matmul"%string ->
    all_some (map (init_in s) (p_in p)) = Some ins0 ->
    rename_node s (mkNode "MatMul" "" ins0 (map (proto_output s) (p_out p)) (p_attrs p)) = (s3, n3) ->
    convert_matmul_to_linear s3 n3 (q :: rest) = Some (n4, true) ->
    (if String.eqb (ntype n4) (ntype n3) then (s3, n4) else rename_node s3 n4) = (s5, n5) ->
    lift_node lift s5 n5 = Some n6 ->
    o_node osem e p = Some e1 -> o_node osem e1 q = Some e2 ->
    exists n' ie', g_nodes (add_node s5 n6) = g_nodes s ++ [n'] /\ node_eval sem static ie n' = Some ie' /\
      inv (add_node s5 n6) (p_out q ++ done) (need rest) e2 ie'.
  Proof.
    intros Hg I Hop Hins Hren Hco Hren2 Hlift Hon1 Hon2.
    assert (Hp : In p (pg_nodes g)) by (rewrite Hg; apply in_app_iff; right; left; reflexivity).
    assert (Hq : In q (pg_nodes g)) by (rewrite Hg; apply in_app_iff; right; right; left; reflexivity).
    destruct (rename_frame _ _ _ _ Hren) as (F2 & Hname & Ht & Hi & Ho & Ha & Hcur).
    cbn [ntype ninputs noutputs nattrs nname] in *.
    pose proof (frame_inv _ _ _ _ _ _ F2 I) as I3.
    destruct (matmul_fused _ _ _ _ Hco) as (q' & rest' & a & w & ia & ib & x & xr & y & yr & Erest & Ein & Eout & Eadd & Eins & Ey & Hcase).
    inversion Erest; subst q' rest'. clear Erest.
    destruct (parse_ok _ _ Eadd) as [_ Hadd]. change (lower "Add") with "add"%string in Hadd. symmetry in Hadd.
    destruct (lg_nodes g legal p Hp) as (_ & _ & Hmm & _). destruct (Hmm Hop) as [Hpat (m & Epo & Hmne)]. clear Hmm.
    destruct (lg_nodes g legal q Hq) as (_ & _ & _ & Had & _). destruct (Had Hadd) as [Hqat (z & Eqo & Hzne)]. clear Had.
    rewrite Epo, Eqo in *. rewrite Ho in Eout. cbn in Eout. inversion Eout; subst x xr. clear Eout.
    cbn in Ey. inversion Ey; subst y yr. clear Ey.
    assert (Hmp : In m (produced (pg_nodes g))) by (eapply legal_out; [exact Hp|rewrite Epo; left; reflexivity]).
    assert (Hzp : In z (produced (pg_nodes g))) by (eapply legal_out; [exact Hq|rewrite Eqo; left; reflexivity]).
    assert (Hmname : forall st, aname (proto_output st m) = san m).
    { intros st. unfold proto_output. destruct (find _ _); [|destruct (sget (g_vinfo st) m)]; reflexivity. }
    rewrite !Hmname in Hcase.
    (* the two inputs of the Add *)
    apply all_some_spec in Eins. destruct (p_in q) as [|x1 [|x2 [|]]] eqn:Eqi; try discriminate Eins.
    cbn in Eins. inversion Eins as [[E1 E2]]. clear Eins.
    assert (Hx1 : In x1 (consumed (pg_nodes g))) by (eapply legal_in; [exact Hq|rewrite Eqi; left; reflexivity]).
    assert (Hx2 : In x2 (consumed (pg_nodes g))) by (eapply legal_in; [exact Hq|rewrite Eqi; right; left; reflexivity]).
    assert (Hnogen : forall b, has_value s3 (aname b) = true -> aname b <> san m).
    { intros b Hb E. apply has_value_in in Hb. rewrite E in Hb.
      destruct (i_fresh _ _ _ _ _ I3 _ Hb) as (t & c & k & Htt & _ & Eg).
      apply (lg_not_generated g legal m (produced_U m Hmp)). exists t, c, k. auto. }
    (* the ONNX run *)
    unfold o_node in Hon1, Hon2. rewrite Hop, Hpat, Epo in Hon1. rewrite Hadd, Hqat, Eqo, Eqi in Hon2.
    destruct (o_inputs e (p_in p)) as [vs|] eqn:Evs; [|discriminate]. cbn [length] in Hon1, Hon2.
    destruct (osem "matmul" [] 1 vs) as [[|mv [|]]|] eqn:Emm; try discriminate. cbn in Hon1. inversion Hon1; subst e1. clear Hon1.
    assert (Hargs : args_eval static ie [a; w] = Some vs).
    { rewrite Hi in Ein. rewrite Ein in Hins.
      eapply (inputs_ok s done (need (p :: q :: rest)) e ie I (p_in p)); try eassumption.
      - intros x Hx. exact (legal_in p x Hp Hx).
      - intros x Hx. left. cbn. apply in_app_iff. left. exact Hx. }
    assert (Hpriv : (x1 = m \/ x2 = m) -> ~ In m (consumed rest) /\ ~ In m (map fst (pg_out g))).
    { intros Hm. apply (lg_private g legal pre p q rest m Hg Hop Hadd); [rewrite Epo; left; reflexivity|].
      rewrite Eqi. destruct Hm as [<-|<-]; [left|right; left]; reflexivity. }
    assert (HzU : incl [z] U) by (intros u [<-|[]]; apply produced_U; exact Hzp).
    (* the common end *)
    assert (Hend : forall bias v2 outs, (x1 = m \/ x2 = m) -> arg_eval static ie bias = Some v2 ->
      n4 = mkNode "Linear" (nname n3) [a; w; bias] (mkArg (aname (proto_output s3 z)) (aty (proto_output s m)) (asrc (proto_output s m)) :: []) (nattrs n3) ->
      osem "add" [] 1 [Some mv; v2] = Some outs -> bind (bind1 e m mv) [z] outs = Some e2 ->
      m <> ""%string ->
      exists n' ie', g_nodes (add_node s5 n6) = g_nodes s ++ [n'] /\ node_eval sem static ie n' = Some ie' /\
        inv (add_node s5 n6) ([z] ++ done) (need rest) e2 ie').
    { intros bias v2 outs Hm Hbias En4 Hadds Hb _.
      assert (Et4 : String.eqb (ntype n4) (ntype n3) = false) by (rewrite En4, Ht; reflexivity).
      rewrite Et4 in Hren2. destruct (rename_frame _ _ _ _ Hren2) as (F3 & Hname' & Ht' & Hi' & Ho' & Ha' & Hcur').
      assert (E4 : ntype n4 = "Linear"%string) by (rewrite En4; reflexivity). rewrite E4 in *.
      destruct (Hpriv Hm) as [Hp1 Hp2].
      apply (finish s s5 done (need (p :: q :: rest)) e ie n5 n6 [z] (vs ++ [v2]) outs (bind1 e m mv) e2 (need rest) "Linear"
               (cur (g_count s3) "Linear" + 1)); try assumption.
      - eapply frame_trans; eassumption.
      - exact linear_type.
      - rewrite Hcur'. pose proof (f_count _ _ F2 "Linear"). lia.
      - rewrite Ho', En4. cbn [noutputs]. constructor; [|constructor]. cbn [aname asrc].
        pose proof (proto_outputs_ok s3 [z] HzU) as Hzo. inversion Hzo as [|? ? ? ? [Hz _] _]; subst.
        split; [exact Hz|]. split; [|intros E; contradiction]. intros _.
        pose proof (proto_outputs_ok s [m] ltac:(intros u [<-|[]]; apply produced_U; exact Hmp)) as Hmo.
        inversion Hmo as [|? ? ? ? [_ [Hms _]] _]; subst. exact (Hms Hmne).
      - intros u [<-|[]]. exact Hzp.
      - cbn. destruct (nonempty z); constructor; [intros []|constructor].
      - rewrite Hi', En4. cbn [ninputs]. cbn in Hargs |- *.
        destruct (arg_eval static ie a) as [va|]; [|discriminate]. destruct (arg_eval static ie w) as [vw|]; [|discriminate].
        inversion Hargs; subst vs. rewrite Hbias. reflexivity.
      - rewrite Ht', Ha', Ho', En4. cbn [nattrs noutputs length]. rewrite Ha, Hpat.
        destruct vs as [|va [|vw [|]]]; cbn in Hargs;
          destruct (arg_eval static ie a), (arg_eval static ie w); try discriminate Hargs.
        unfold ir_sem. cbn [String.eqb Ascii.eqb Bool.eqb sget app]. rewrite Emm. exact Hadds.
      - intros o Hn. apply need_tail, need_tail, Hn.
      - intros o Hn _. unfold bind1. destruct (String.eqb_spec m o) as [<-|]; [|reflexivity].
        exfalso. destruct Hn as [Hn|Hn]; contradiction.
      - intros E. rewrite Ht' in E. discriminate. }
    (* reading an Add input that is not the MatMul result *)
    assert (Hbias : forall xb b v, In xb (consumed (pg_nodes g)) -> (xb = x1 \/ xb = x2) -> init_in s3 xb = Some b ->
      aname b <> san m -> xb <> m ->
      (if String.eqb xb "" then Some None else option_map Some (bind1 e m mv xb)) = Some v ->
      arg_eval static ie b = Some v).
    { intros xb b v Hc Hx Hb Hne Hxm Hv.
      assert (Hv' : o_inputs e [xb] = Some [v]).
      { cbn. unfold bind1 in Hv. destruct (String.eqb_spec m xb) as [E|_]; [symmetry in E; contradiction|].
        destruct (String.eqb xb ""); [inversion Hv; reflexivity|]. destruct (e xb); [|discriminate]. cbn in *. inversion Hv. reflexivity. }
      assert (Hargs1 : args_eval static ie [b] = Some [v]).
      { apply (inputs_ok s3 done (need (p :: q :: rest)) e ie I3 [xb]).
        - intros u [<-|[]]. exact Hc.
        - intros u [<-|[]]. left. cbn. apply in_app_iff. right. rewrite Eqi. cbn. destruct Hx as [-> | ->]; auto.
        - cbn. rewrite Hb. reflexivity.
        - exact Hv'. }
      cbn in Hargs1. destruct (arg_eval static ie b); [|discriminate]. inversion Hargs1. reflexivity. }
    cbn [o_inputs] in Hon2.
    destruct (if String.eqb x1 "" then Some None else option_map Some (bind1 e m mv x1)) as [v1|] eqn:Ev1; [|discriminate].
    destruct (if String.eqb x2 "" then Some None else option_map Some (bind1 e m mv x2)) as [v2|] eqn:Ev2; [|discriminate].
    destruct (osem "add" [] 1 [v1; v2]) as [outs|] eqn:Eadds; [|discriminate].
    destruct Hcase as [(Hia & Hib & En4)|[(Hib & Hia & Hv & En4)|(Hib & Hia & Hv)]].
    - destruct (name_is _ _ _ _ _ _ _ _ I3 Hx1 Hmp Hmne E1 Hia) as (Exm & Hne & _).
      assert (Hv1 : v1 = Some mv).
      { subst x1. destruct (String.eqb_spec m ""); [contradiction|]. unfold bind1 in Ev1. rewrite String.eqb_refl in Ev1.
        inversion Ev1. reflexivity. }
      subst v1. apply (Hend ib v2 outs); try assumption; [left; exact Exm|].
      eapply (Hbias x2); [exact Hx2|right; reflexivity|exact E2|apply Hnogen; exact Hib| |exact Ev2].
      intros ->. rewrite Exm, E2 in E1. inversion E1; subst. exact (Hnogen ia Hib Hia).
    - destruct (name_is _ _ _ _ _ _ _ _ I3 Hx2 Hmp Hmne E2 Hib) as (Exm & Hne & _).
      assert (Hv2 : v2 = Some mv).
      { subst x2. destruct (String.eqb_spec m ""); [contradiction|]. unfold bind1 in Ev2. rewrite String.eqb_refl in Ev2.
        inversion Ev2. reflexivity. }
      subst v2. rewrite (law_add osem cval laws) in Eadds.
      apply (Hend ia v1 outs); try assumption; [right; exact Exm|].
      eapply (Hbias x1); [exact Hx1|left; reflexivity|exact E1|exact Hia| |exact Ev1].
      intros ->. rewrite Exm, E1 in E2. inversion E2; subst. contradiction.
    - exfalso. exact (Hnogen ia Hv Hia).
  Qed.

  Lemma o_inputs_length (e : env) : forall l vs, o_inputs e l = Some vs -> length vs = length l.
  Proof.
    induction l as [|x l IH]; intros vs H; cbn in H; [inversion H; reflexivity|].
    destruct (if String.eqb x "" then _ else _); [|discriminate]. destruct (o_inputs e l); [|discriminate].
    inversion H; subst. cbn. rewrite (IH _ eq_refl). reflexivity.
  Qed.

  Lemma all_some_length {A} (l : list (option A)) r : all_some l = Some r -> length r = length l.
  Proof. intros H. apply all_some_spec in H. rewrite H, map_length. reflexivity. Qed.

  Lemma rename_store s n : g_store (fst (rename_node s n)) = g_store s.
  Proof. reflexivity. Qed.
  Lemma add_store s n : g_store (add_node s n) = g_store s.
  Proof. unfold add_node. destruct (add_outputs _ _ _ _ _ _ _) as [[? ?] ?]. reflexivity. Qed.

  (** What one round of the loop does, node by node. *)
  Lemma step_ok pre s p rest done (e ie e1 : env) s' eaten :
    pg_nodes g = pre ++ p :: rest -> inv s done (need (p :: rest)) e ie ->
    convert_step tinfo lift s p rest = Some (s', eaten) -> prefix (g_store s') final ->
    o_node osem e p = Some e1 ->
    (eaten = false -> exists n' ie', g_nodes s' = g_nodes s ++ [n'] /\ node_eval sem static ie n' = Some ie' /\
       inv s' (p_out p ++ done) (need rest) e1 ie') /\
    (eaten = true -> exists q rest' , rest = q :: rest' /\ forall e2, o_node osem e1 q = Some e2 ->
       (exists m, p_out p = [m] /\ ~ need rest' m) /\
       exists n' ie', g_nodes s' = g_nodes s ++ [n'] /\ node_eval sem static ie n' = Some ie' /\
       inv s' (p_out q ++ done) (need rest') e2 ie').
  Proof.
    intros Hg I H Hpre Hon.
    assert (Hp : In p (pg_nodes g)) by (rewrite Hg; apply in_app_iff; right; left; reflexivity).
    pose proof (lg_nodes g legal p Hp) as Hleg.
    unfold convert_step, convert_node_proto in H.
    destruct (parse_type (p_op p)) as [t|] eqn:Ept; [|discriminate].
    destruct (all_some (map (init_in s) (p_in p))) as [ins0|] eqn:Eins; [|discriminate].
    destruct (parse_ok _ _ Ept) as [Ht Hlow]. cbn [ntype] in H.
    destruct (mem_str t ["If"; "Loop"; "Scan"]%string); [discriminate|].
    destruct (String.eqb_spec t "Constant") as [->|Hnc].
    - (* Constant *)
      destruct (extract_constant tinfo s _) as [s1 n1] eqn:Eex.
      assert (Et1 : ntype n1 = "Constant"%string).
      { unfold extract_constant in Eex. cbn [nattrs] in Eex. destruct (find _ _) as [k|]; [|inversion Eex; reflexivity].
        destruct (sget (p_attrs p) k) as [a|]; [|inversion Eex; reflexivity].
        destruct (const_ty tinfo a); inversion Eex; reflexivity. }
      assert (Er : remap_node_type n1 = Some n1) by (unfold remap_node_type; rewrite Et1; reflexivity).
      rewrite Er in H. destruct (rename_node s1 n1) as [s3 n3] eqn:Eren.
      destruct (rename_frame _ _ _ _ Eren) as (_ & _ & Et3 & _).
      unfold coalesce in H. rewrite Et3, Et1 in H. cbn in H. rewrite Et3, Et1 in H. cbn in H.
      destruct (lift_node lift s3 n3) as [n6|] eqn:El; [|discriminate]. inversion H; subst s' eaten. clear H.
      split; [intros _|discriminate].
      eapply (step_constant s p rest done e ie e1 ins0 s1 n1 n1 s3 n3 n6); try eassumption; try reflexivity.
      + symmetry. exact Hlow.
      + rewrite add_store in Hpre. replace s3 with (fst (rename_node s1 n1)) in Hpre by (rewrite Eren; reflexivity). exact Hpre.
    - destruct (remap_node_type _) as [n2|] eqn:Er; [|discriminate].
      destruct (remap_ok _ _ Er) as (Ht2 & Hi2 & Ho2 & Ha2 & Hnc2 & Hnl2 & Hsame & Hsem); cbn [ntype];
        [exact Ht| |exact Hnc|].
      { rewrite Hlow. exact (proj1 Hleg). }
      cbn [ntype ninputs noutputs nattrs nname] in *.
      destruct (rename_node s n2) as [s3 n3] eqn:Eren.
      destruct (rename_frame _ _ _ _ Eren) as (F2 & Hname & Et3 & Hi3 & Ho3 & Ha3 & Hcur).
      destruct (coalesce s3 n3 rest) as [[n4 eaten']|] eqn:Eco; [|discriminate].
      destruct (if String.eqb (ntype n4) (ntype n3) then (s3, n4) else rename_node s3 n4) as [s5 n5] eqn:Eren2.
      destruct (lift_node lift s5 n5) as [n6|] eqn:El; [|discriminate]. inversion H; subst s' eaten'. clear H.
      assert (Hvs : exists vs, o_inputs e (p_in p) = Some vs).
      { unfold o_node in Hon. destruct (o_inputs e (p_in p)); [eauto|discriminate]. }
      destruct Hvs as [vs Hvs].
      assert (Hlen3 : length vs = length (ninputs n3)).
      { rewrite (o_inputs_length _ _ _ Hvs), Hi3, Hi2, (all_some_length _ _ Eins), map_length. reflexivity. }
      assert (Hsingle : eaten = false -> ninputs n4 = ninputs n3 -> noutputs n4 = noutputs n3 -> nname n4 = nname n3 ->
        In (ntype n4) node_types -> ntype n4 <> "Constant"%string ->
        (forall k, sem (ntype n4) (nattrs n4) k vs = osem (lower (p_op p)) (p_attrs p) k vs) ->
        exists n' ie', g_nodes (add_node s5 n6) = g_nodes s ++ [n'] /\ node_eval sem static ie n' = Some ie' /\
          inv (add_node s5 n6) (p_out p ++ done) (need rest) e1 ie').
      { intros _ A1 A2 A3 A4 A5 A6.
        eapply (step_single s p rest done e ie e1 ins0 vs (lower (p_op p)) n2 s3 n3 n4 s5 n5 n6); try eassumption; try reflexivity.
        intros outs Houts. rewrite A6. exact Houts. }
      unfold coalesce in Eco. rewrite Et3 in Eco.
      destruct (String.eqb_spec (ntype n2) "Gemm") as [Eg|Ng].
      { destruct (convert_gemm_to_linear n3) as [m4|] eqn:Egl; [|discriminate]. cbn in Eco. inversion Eco; subst m4 eaten.
        split; [intros _|discriminate].
        assert (Eop : lower (p_op p) = "gemm"%string).
        { destruct Hsame as [->|[Hx _]]; [|congruence]. cbn in Eg. rewrite <- Hlow, Eg. reflexivity. }
        assert (Hat : nattrs n3 = p_attrs p) by congruence.
        destruct (gemm_ok _ _ p Egl) as (B1 & B2 & B3 & B4 & B5 & B6); try assumption; [congruence|].
        apply Hsingle; try assumption; [reflexivity|]. intros k. rewrite Eop. apply B6. }
      destruct (String.eqb_spec (ntype n2) "MatMul") as [Em|Nm].
      { assert (En2 : n2 = mkNode t "" ins0 (map (proto_output s) (p_out p)) (p_attrs p)).
        { destruct Hsame as [->|[_ Hx]]; [reflexivity|congruence]. }
        assert (Ett : t = "MatMul"%string) by (rewrite En2 in Em; exact Em).
        assert (Eop : lower (p_op p) = "matmul"%string) by (rewrite <- Hlow, Ett; reflexivity).
        assert (Hat : nattrs n3 = p_attrs p) by congruence.
        destruct eaten.
        - split; [discriminate|intros _].
          destruct rest as [|q rest'].
          { destruct (matmul_fused _ _ _ _ Eco) as (? & ? & ? & ? & ? & ? & ? & ? & ? & ? & Ex & _). discriminate. }
          exists q, rest'. split; [reflexivity|]. intros e2 Hon2. split.
          + destruct Hleg as (_ & _ & Hmm & _). destruct (Hmm Eop) as [_ (m & Epo & Hmne)].
            exists m. split; [exact Epo|]. rewrite Epo in *.
            destruct (matmul_fused _ _ _ _ Eco) as (q' & r' & a & w & ia & ib & x & xr & y & yr & Ex & _ & Eo' & Eadd & Eq & _ & Hcase).
            inversion Ex; subst q' r'. destruct (parse_ok _ _ Eadd) as [_ Hadd].
            assert (Hmp : In m (produced (pg_nodes g))) by (eapply legal_out; [exact Hp|rewrite Epo; left; reflexivity]).
            assert (Hx : aname x = san m).
            { rewrite Ho3, Ho2 in Eo'. cbn in Eo'. inversion Eo'.
              unfold proto_output. destruct (find _ _); [|destruct (sget (g_vinfo s) m)]; reflexivity. }
            pose proof (frame_inv _ _ _ _ _ _ F2 I) as I3.
            assert (Hq : In q (pg_nodes g)) by (rewrite Hg; apply in_app_iff; right; right; left; reflexivity).
            apply all_some_spec in Eq. destruct (p_in q) as [|x1 [|x2 [|]]] eqn:Eqi; try discriminate Eq.
            cbn in Eq. inversion Eq as [[E1 E2]].
            assert (Hxm : x1 = m \/ x2 = m).
            { destruct Hcase as [(Hia & _)|[(Hib & _)|(Hib & _)]].
              - left. eapply (name_is s3); [exact I3| |exact Hmp|exact Hmne|exact E1|congruence]. eapply legal_in; [exact Hq|rewrite Eqi; left; reflexivity].
              - right. eapply (name_is s3); [exact I3| |exact Hmp|exact Hmne|exact E2|congruence]. eapply legal_in; [exact Hq|rewrite Eqi; right; left; reflexivity].
              - right. eapply (name_is s3); [exact I3| |exact Hmp|exact Hmne|exact E2|congruence]. eapply legal_in; [exact Hq|rewrite Eqi; right; left; reflexivity]. }
            destruct (lg_private g legal pre p q rest' m Hg Eop) as [P1 P2].
            * rewrite <- Hadd. reflexivity.
            * rewrite Epo. left. reflexivity.
            * rewrite Eqi. destruct Hxm as [<-|<-]; [left|right; left]; reflexivity.
            * intros [Hn|Hn]; contradiction.
          + rewrite En2, Ett in Eren.
            eapply (step_fused pre s p q rest' done e ie e1 e2 ins0 s3 n3 n4 s5 n5 n6); eassumption.
        - split; [intros _|discriminate].
          destruct (matmul_alone _ _ _ _ p Eco) as (B1 & B2 & B3 & B4 & B5 & B6); try assumption; [congruence|].
          apply Hsingle; try assumption; [reflexivity|]. intros k. rewrite Eop. apply B6. exact Hlen3. }
      inversion Eco; subst n4 eaten. split; [intros _|discriminate].
      apply Hsingle; try reflexivity.
      + rewrite Et3. exact Ht2.
      + rewrite Et3. exact Hnc2.
      + intros k. rewrite Et3, Ha3, Ha2, Hsem, Hlow. reflexivity.
  Qed.

  (** * The loop *)
  Lemma prefix_trans {A} (a b c : list A) : prefix a b -> prefix b c -> prefix a c.
  Proof. intros [l ->] [m ->]. exists (l ++ m). rewrite app_assoc. reflexivity. Qed.
  Lemma prefix_refl {A} (a : list A) : prefix a a.
  Proof. exists []. rewrite app_nil_r. reflexivity. Qed.

  Lemma extract_store s n s1 n1 : extract_constant tinfo s n = (s1, n1) ->
    prefix (g_store s) (g_store s1) /\ g_inmap s1 = g_inmap s /\ g_inputs s1 = g_inputs s /\ g_outputs s1 = g_outputs s.
  Proof.
    assert (Hs : prefix (g_store s) (g_store s) /\ g_inmap s = g_inmap s /\ g_inputs s = g_inputs s /\ g_outputs s = g_outputs s).
    { split; [apply prefix_refl|]. auto. }
    unfold extract_constant. destruct (find _ const_keys) as [k|]; [|intros H; inversion H; subst; exact Hs].
    destruct (sget (nattrs n) k) as [a|]; [|intros H; inversion H; subst; exact Hs].
    destruct (const_ty tinfo a); intros H; inversion H; subst; [|exact Hs].
    cbn. split; [eexists; reflexivity|]. auto.
  Qed.

  Lemma rename_other s n s' n' : rename_node s n = (s', n') ->
    g_store s' = g_store s /\ g_inmap s' = g_inmap s /\ g_inputs s' = g_inputs s /\ g_outputs s' = g_outputs s.
  Proof. unfold rename_node, generate_node_name. intros H. inversion H; subst. cbn. auto. Qed.

  Lemma step_other s p rest s' b : convert_step tinfo lift s p rest = Some (s', b) ->
    prefix (g_store s) (g_store s') /\ g_inmap s' = g_inmap s /\ g_inputs s' = g_inputs s /\ g_outputs s' = g_outputs s.
  Proof.
    unfold convert_step. destruct (convert_node_proto s p) as [n0|]; [|discriminate].
    destruct (mem_str _ _); [discriminate|].
    destruct (if String.eqb (ntype n0) "Constant" then extract_constant tinfo s n0 else (s, n0)) as [s1 n1] eqn:E1.
    assert (H1 : prefix (g_store s) (g_store s1) /\ g_inmap s1 = g_inmap s /\ g_inputs s1 = g_inputs s /\ g_outputs s1 = g_outputs s).
    { destruct (String.eqb (ntype n0) "Constant"); [eapply extract_store; eassumption|].
      inversion E1; subst. split; [apply prefix_refl|auto]. }
    destruct (remap_node_type n1) as [n2|]; [|discriminate].
    destruct (rename_node s1 n2) as [s3 n3] eqn:E3. apply rename_other in E3.
    destruct (coalesce s3 n3 rest) as [[n4 eaten]|]; [|discriminate].
    destruct (if String.eqb (ntype n4) (ntype n3) then (s3, n4) else rename_node s3 n4) as [s5 n5] eqn:E5.
    assert (H5 : g_store s5 = g_store s3 /\ g_inmap s5 = g_inmap s3 /\ g_inputs s5 = g_inputs s3 /\ g_outputs s5 = g_outputs s3).
    { destruct (String.eqb (ntype n4) (ntype n3)); [inversion E5; subst; auto|]. eapply rename_other; eassumption. }
    destruct (lift_node lift s5 n5) as [n6|]; [|discriminate]. intros H. inversion H; subst. clear H.
    assert (Ha : g_inmap (add_node s5 n6) = g_inmap s5 /\ g_inputs (add_node s5 n6) = g_inputs s5 /\ g_outputs (add_node s5 n6) = g_outputs s5).
    { unfold add_node. destruct (add_outputs _ _ _ _ _ _ _) as [[? ?] ?]. auto. }
    rewrite add_store. destruct Ha as (-> & -> & ->). destruct H5 as (-> & -> & -> & ->). destruct E3 as (-> & -> & -> & ->).
    exact H1.
  Qed.

  Lemma convert_other : forall k l s s', (length l <= k)%nat -> convert_nodes tinfo lift s l = Some s' ->
    prefix (g_store s) (g_store s') /\ g_inmap s' = g_inmap s /\ g_inputs s' = g_inputs s /\ g_outputs s' = g_outputs s.
  Proof.
    induction k as [|k IH]; intros l s s' Hk H.
    - destruct l; [|cbn in Hk; lia]. inversion H; subst. split; [apply prefix_refl|auto].
    - destruct l as [|p rest]; [inversion H; subst; split; [apply prefix_refl|auto]|].
      cbn [convert_nodes] in H. destruct (convert_step tinfo lift s p rest) as [[s1 b]|] eqn:E; [|discriminate].
      destruct (step_other _ _ _ _ _ E) as (P1 & P2 & P3 & P4).
      assert (Hnext : s' = s1 \/ exists l', (length l' <= k)%nat /\ convert_nodes tinfo lift s1 l' = Some s').
      { destruct rest as [|q rest']; [inversion H; left; reflexivity|]. right. cbn in Hk.
        destruct b; eexists; (split; [|exact H]); cbn; lia. }
      destruct Hnext as [->|(l' & Hl & Hc)]; [auto|].
      destruct (IH _ _ _ Hl Hc) as (Q1 & Q2 & Q3 & Q4). split; [eapply prefix_trans; eassumption|].
      split; [congruence|]. split; congruence.
  Qed.

  Lemma inv_done s done done' nd e ie : inv s done nd e ie -> incl done' U ->
    (forall o, In o done' -> nd o -> In o done) -> inv s done' nd e ie.
  Proof.
    intros I Hu Hd. destruct I. split; try assumption. intros o Hne Hn Ho. apply i_def0; auto.
  Qed.

  Lemma nodes_ok : forall k l pre s done (e ie ef : env) s', (length l <= k)%nat ->
    pg_nodes g = pre ++ l -> inv s done (need l) e ie ->
    (forall o, In o (init_names_of g ++ produced pre) -> need l o -> In o done) ->
    convert_nodes tinfo lift s l = Some s' -> prefix (g_store s') final -> o_nodes osem e l = Some ef ->
    exists ns ie' done', g_nodes s' = g_nodes s ++ ns /\ run sem static ie ns = Some ie' /\
      inv s' done' (need []) ef ie' /\
      (forall o, In o (init_names_of g ++ produced (pg_nodes g)) -> need [] o -> In o done').
  Proof.
    induction k as [|k IH]; intros l pre s done e ie ef s' Hk Hg I Hd H Hpre Ho.
    - destruct l; [|cbn in Hk; lia]. inversion H; subst. inversion Ho; subst. rewrite app_nil_r in Hg.
      exists [], ie, done. rewrite app_nil_r, Hg. auto.
    - destruct l as [|p rest].
      { inversion H; subst. inversion Ho; subst. rewrite app_nil_r in Hg.
        exists [], ie, done. rewrite app_nil_r, Hg. auto. }
      cbn [convert_nodes] in H. destruct (convert_step tinfo lift s p rest) as [[s1 b]|] eqn:E; [|discriminate].
      cbn [o_nodes] in Ho. destruct (o_node osem e p) as [e1|] eqn:Eo; [|discriminate].
      assert (Hpre1 : prefix (g_store s1) final).
      { destruct rest as [|q rest']; [inversion H; subst; exact Hpre|].
        destruct b; (eapply prefix_trans; [|exact Hpre]); eapply convert_other; [reflexivity|exact H| |exact H]; reflexivity. }
      destruct (step_ok pre s p rest done e ie e1 s1 b Hg I E Hpre1 Eo) as [Hf Ht].
      assert (Hadd : forall x l', In x (produced (pre ++ l')) <-> In x (produced pre) \/ In x (produced l')).
      { intros x l'. unfold produced. rewrite flat_map_app, in_app_iff. reflexivity. }
      destruct b.
      + destruct (Ht eq_refl) as (q & rest' & -> & Hq). cbn [o_nodes] in Ho.
        destruct (o_node osem e1 q) as [e2|] eqn:Eo2; [|discriminate].
        destruct (Hq e2 eq_refl) as ((m & Em & Hnm) & n' & ie1 & En & Hev & I1).
        cbn in Hk.
        destruct (IH rest' (pre ++ [p; q]) s1 (p_out q ++ done) e2 ie1 ef s') as (ns & ie' & done' & E1 & E2 & I2 & Hd2); try assumption.
        * lia.
        * rewrite Hg, <- app_assoc. reflexivity.
        * intros o Ho' Hn. rewrite in_app_iff, Hadd in Ho'. apply in_app_iff. cbn in Ho'. rewrite app_nil_r, in_app_iff, Em in Ho'.
          destruct Ho' as [Ho'|[Ho'|[[<-|[]]|Ho']]].
          -- right. apply Hd; [apply in_app_iff; left; exact Ho'|]. apply need_tail, need_tail, Hn.
          -- right. apply Hd; [apply in_app_iff; right; exact Ho'|]. apply need_tail, need_tail, Hn.
          -- contradiction.
          -- left. exact Ho'.
        * exists (n' :: ns), ie', done'. split; [rewrite E1, En, <- app_assoc; reflexivity|].
          split; [cbn; rewrite Hev; exact E2|]. auto.
      + destruct (Hf eq_refl) as (n' & ie1 & En & Hev & I1).
        assert (Hc : convert_nodes tinfo lift s1 rest = Some s') by (destruct rest; exact H).
        cbn in Hk.
        destruct (IH rest (pre ++ [p]) s1 (p_out p ++ done) e1 ie1 ef s') as (ns & ie' & done' & E1 & E2 & I2 & Hd2); try assumption.
        * lia.
        * rewrite Hg, <- app_assoc. reflexivity.
        * intros o Ho' Hn. rewrite in_app_iff, Hadd in Ho'. apply in_app_iff. cbn in Ho'. rewrite app_nil_r in Ho'.
          destruct Ho' as [Ho'|[Ho'|Ho']].
          -- right. apply Hd; [apply in_app_iff; left; exact Ho'|]. apply need_tail, Hn.
          -- right. apply Hd; [apply in_app_iff; right; exact Ho'|]. apply need_tail, Hn.
          -- left. exact Ho'.
        * exists (n' :: ns), ie', done'. split; [rewrite E1, En, <- app_assoc; reflexivity|].
          split; [cbn; rewrite Hev; exact E2|]. auto.
  Qed.

  (** * Initializers *)
  Definition tru (_ : string) : Prop := True.

  Lemma sput_same {A} (m : smap A) k v : sget (sput m k v) k = Some v.
  Proof. unfold sput. cbn. rewrite String.eqb_refl. reflexivity. Qed.
  Lemma sput_oth {A} (m : smap A) k k' v : k' <> k -> sget (sput m k v) k' = sget m k'.
  Proof. intros H. unfold sput. cbn. destruct (String.eqb_spec k k'); [congruence|reflexivity]. Qed.

  Definition put2 {A} (m : smap A) (x : string) (v : A) : smap A :=
    if String.eqb (san x) x then sput m x v else sput (sput m x v) (san x) v.
  Lemma put2_same {A} (m : smap A) x v : sget (put2 m x v) (san x) = Some v.
  Proof.
    unfold put2. destruct (String.eqb_spec (san x) x) as [E|E]; [rewrite E|]; apply sput_same.
  Qed.
  Lemma put2_raw {A} (m : smap A) x v : sget (put2 m x v) x = Some v.
  Proof.
    unfold put2. destruct (String.eqb_spec (san x) x) as [E|E]; [apply sput_same|].
    rewrite sput_oth by congruence. apply sput_same.
  Qed.
  Lemma put2_oth {A} (m : smap A) x v k : k <> x -> k <> san x -> sget (put2 m x v) k = sget m k.
  Proof.
    intros H1 H2. unfold put2. destruct (String.eqb (san x) x); rewrite !sput_oth by assumption; reflexivity.
  Qed.
  Lemma put2_cases {A} (m : smap A) x v k : sget (put2 m x v) k = Some v \/ sget (put2 m x v) k = sget m k.
  Proof.
    destruct (string_dec k x) as [->|H1]; [left; apply put2_raw|].
    destruct (string_dec k (san x)) as [->|H2]; [left; apply put2_same|]. right. apply put2_oth; assumption.
  Qed.

  Definition istate (ns : list rnode) (outs : list arg) (om : smap (nat * nat)) (cm : smap N) (vi : smap argty) (r : registry) : gstate :=
    mkS ns [] outs [] om [] cm vi outer r.

  Lemma init_store : forall l r store, prefix store (snd (fst (fst (process_initializers tinfo r store l)))).
  Proof.
    induction l as [|[x p] l IH]; intros r store; [apply prefix_refl|].
    cbn [process_initializers]. destruct (generate_node_name r "Constant") as [r1 name].
    specialize (IH r1 (store ++ [ATensor p])).
    destruct (process_initializers tinfo r1 (store ++ [ATensor p]) l) as [[[r2 store2] nodes] cm]. cbn in *.
    eapply prefix_trans; [|exact IH]. eexists. reflexivity.
  Qed.

  Lemma inits_ok outs vi : forall l pre_l, pg_init g = pre_l ++ l ->
    forall ns om cm r store (e ie : env),
    inv (istate ns outs om cm vi r) (map fst pre_l) tru e ie ->
    (forall o, In o U -> sget om (san o) <> None -> sget om o <> None) ->
    (forall o, In o U -> sget om o <> None -> In o (map fst pre_l)) ->
    length ns = length pre_l ->
    forall r1 store1 nodes cm1, process_initializers tinfo r store l = (r1, store1, nodes, cm1) ->
    prefix store1 final ->
    exists ie', run sem static ie nodes = Some ie' /\
      inv (istate (ns ++ nodes) outs (init_outmap (length ns) l om) (cm1 ++ cm) vi r1) (map fst (pg_init g)) tru
        (o_init cval e l) ie' /\
      (forall o, In o U -> sget (init_outmap (length ns) l om) (san o) <> None -> sget (init_outmap (length ns) l om) o <> None) /\
      (forall o, In o U -> sget (init_outmap (length ns) l om) o <> None -> In o (map fst (pg_init g))).
  Proof.
    induction l as [|[x p] l IH]; intros pre_l Hg ns om cm r store e ie I Hraw Hdom Hlen r1 store1 nodes cm1 H Hpre.
    - inversion H; subst. exists ie. rewrite app_nil_r in *. rewrite Hg. cbn. auto.
    - cbn [process_initializers] in H.
      destruct (generate_node_name r "Constant") as [r0 name] eqn:Egn.
      unfold generate_node_name in Egn. cbn zeta in Egn.
      destruct (process_initializers tinfo r0 (store ++ [ATensor p]) l) as [[[r2 store2] nodes2] cm2] eqn:Ep.
      inversion H; subst. clear H.
      set (out := (name ++ "_out1")%string) in *. set (id := N.of_nat (length store)) in *.
      set (ty := data_ty (fst (tinfo p)) (snd (tinfo p))) in *.
      assert (Hst : static id = Some (cval (ATensor p))).
      { apply (prefix_static store); [|reflexivity]. eapply prefix_trans; [|exact Hpre].
        pose proof (init_store l r0 (store ++ [ATensor p])) as Q. rewrite Ep in Q. exact Q. }
      assert (Hr0 : forall u, cur r0 u = if String.eqb "Constant" u then (cur r "Constant" + 1)%N else cur r u).
      { injection Egn as Er En. intros u. rewrite <- Er, bump_cur. unfold cur at 1. rewrite counter_set.
        destruct (String.eqb "Constant" u); reflexivity. }
      assert (En : name = type_name "Constant" (cur r "Constant" + 1)).
      { injection Egn as Er En. rewrite <- En, bump_cur. reflexivity. }
      assert (Hc : In "Constant"%string node_types) by (apply mem_str_In; vm_compute; reflexivity).
      assert (Hxi : In x (init_names_of g)).
      { unfold init_names_of. rewrite Hg, map_app. apply in_or_app. right. left. reflexivity. }
      assert (HxU : In x U).
      { unfold graph_names. rewrite !in_app_iff. auto. }
      assert (Hxne : x <> ""%string).
      { intros ->. apply (lg_nonempty g legal). rewrite !in_app_iff. auto. }
      assert (Hsne : san x <> ""%string) by (apply (lg_san_nonempty g legal); assumption).
      assert (Hnew : forall o, In o U -> o <> x -> o <> san x /\ san o <> x /\ san o <> san x).
      { intros o Ho Hne. repeat split; intros E; apply Hne, san_key; auto. }
      set (om2 := put2 om x (length ns, 0%nat)).
      assert (Hmap : init_outmap (length ns) ((x, p) :: l) om = init_outmap (S (length ns)) l om2) by reflexivity.
      set (s0 := istate ns outs om cm vi r0).
      assert (I0 : inv s0 (map fst pre_l) tru e ie).
      { apply (frame_inv (istate ns outs om cm vi r) s0); [|exact I]. split; try reflexivity.
        intros u. cbn. rewrite Hr0. destruct (String.eqb_spec "Constant" u) as [<-|]; lia. }
      set (n := create_constant_node name out ty id).
      set (s1 := istate (ns ++ [n]) outs om2 ((out, id) :: cm) vi r0).
      assert (Hout : out = output_name (type_name "Constant" (cur r "Constant" + 1)) 1).
      { unfold out. rewrite En. reflexivity. }
      destruct (add_gen s0 (map fst pre_l) tru e ie n [x] [Some (cval (ATensor p))]
        [cval (ATensor p)] e (bind1 e x (cval (ATensor p))) om2 ((out, id) :: cm) tru "Constant"%string
        (cur r "Constant" + 1)%N s1) as (ie1 & Hev & I1).
      { exact I0. }
      { exact En. }
      { exact Hc. }
      { cbn. rewrite Hr0. cbn. lia. }
      { intros k. refine (fresh_ok (istate ns outs om cm vi r) _ _ _ _ _ _ k I Hc _). cbn. lia. }
      { cbn. rewrite Hout. reflexivity. }
      { constructor; [|constructor]. intros _. right. reflexivity. }
      { intros y [<-|[]]. exact HxU. }
      { cbn. unfold nonempty. destruct (String.eqb_spec x ""); [contradiction|]. cbn. constructor; [intros []|constructor]. }
      { intros y _. right. reflexivity. }
      { unfold n, create_constant_node. cbn -[static_of]. rewrite Hst. reflexivity. }
      { reflexivity. }
      { reflexivity. }
      { intros o Ho. exact Ho. }
      { reflexivity. }
      { intros o Ho Hne. destruct (string_dec o x) as [->|Hox].
        - left. exists 0%nat. split; [reflexivity|]. apply put2_same.
        - right. split; [intros [E|[]]; congruence|]. destruct (Hnew o Ho Hox) as (_ & N2 & N3). apply put2_oth; assumption. }
      { intros o Ho Hne Hs. destruct (string_dec o x) as [->|Hox].
        - unfold om2. rewrite put2_same. discriminate.
        - destruct (Hnew o Ho Hox) as (N1 & N2 & N3). unfold om2 in *. rewrite put2_oth in * by assumption.
          apply (i_keep _ _ _ _ _ I0); assumption. }
      { intros ij Hs. left. unfold om2 in Hs. rewrite put2_oth in Hs by congruence. exact Hs. }
      { intros k ij Hs. unfold om2 in Hs. destruct (put2_cases om x (length ns, 0%nat) k) as [Q|Q]; rewrite Q in Hs.
        - right. inversion Hs; subst. cbn. split; [reflexivity|lia].
        - left. exact Hs. }
      { intros y i Hs. cbn in Hs. destruct (String.eqb_spec out y) as [<-|].
        - right. exists 0%nat, (cval (ATensor p)). inversion Hs; subst. cbn. auto.
        - left. exact Hs. }
      all: try reflexivity.
      destruct (IH (pre_l ++ [(x, p)])) with (ns := ns ++ [n]) (om := om2) (cm := (out, id) :: cm) (r := r0)
        (store := store ++ [ATensor p]) (e := bind1 e x (cval (ATensor p))) (ie := ie1) (r1 := r1) (store1 := store1)
        (nodes := nodes2) (cm1 := cm2) as (ie' & Hrun & I2 & H1 & H2).
      + rewrite Hg, <- app_assoc. reflexivity.
      + apply (inv_done s1 ([x] ++ map fst pre_l)); [exact I1| |].
        * intros y Hy. rewrite map_app, in_app_iff in Hy. destruct Hy as [Hy|[<-|[]]]; [|exact HxU].
          apply (i_done _ _ _ _ _ I). exact Hy.
        * intros o Ho _. rewrite map_app, in_app_iff in Ho. cbn. destruct Ho as [Ho|[Ho|[]]]; auto.
      + intros o Ho Hs. destruct (string_dec o x) as [->|Hox]; [unfold om2; rewrite put2_raw; discriminate|].
        destruct (Hnew o Ho Hox) as (N1 & N2 & N3). unfold om2 in *. rewrite put2_oth in * by assumption. auto.
      + intros o Ho Hs. rewrite map_app, in_app_iff. destruct (string_dec o x) as [->|Hox]; [right; left; reflexivity|].
        left. destruct (Hnew o Ho Hox) as (N1 & N2 & N3). unfold om2 in *. rewrite put2_oth in * by assumption. auto.
      + rewrite !app_length, Hlen. reflexivity.
      + exact Ep.
      + exact Hpre.
      + exists ie'. rewrite Hmap. replace (length (ns ++ [n])) with (S (length ns)) in * by (rewrite app_length; cbn; lia).
        split; [cbn [run]; fold n; rewrite Hev; exact Hrun|]. split; [|split; assumption].
        rewrite <- !app_assoc in I2 |- *. exact I2.
  Qed.

  (** * Graph inputs *)
  Definition not_init (x : string) : bool := negb (mem_str x (init_names_of g)).

  Lemma inputs_init om :
    (forall o, In o U -> sget om (san o) <> None -> sget om o <> None) ->
    (forall o, In o U -> sget om o <> None <-> In o (init_names_of g)) ->
    forall l pre ins m, pg_in g = pre ++ l ->
    (forall o, In o U -> sget m o = sget m (san o)) ->
    (forall o i, In o U -> sget m o = Some i -> In o (map fst pre) /\ sget om (san o) = None /\
       exists ty, nth_error ins i = Some (mkArg (san o) ty VDynamic)) ->
    (forall o, In o (map fst pre) -> ~ In o (init_names_of g) -> sget m o <> None) ->
    sget m "" = None ->
    map aname ins = map san (filter not_init (map fst pre)) ->
    let '(ins', m') := init_inputs outer om l ins m in
    (forall o, In o U -> sget m' o = sget m' (san o)) /\
    (forall o i, In o U -> sget m' o = Some i -> In o (in_names_of g) /\ sget om (san o) = None /\
       exists ty, nth_error ins' i = Some (mkArg (san o) ty VDynamic)) /\
    (forall o, In o (in_names_of g) -> ~ In o (init_names_of g) -> sget m' o <> None) /\
    sget m' "" = None /\
    map aname ins' = map san (filter not_init (in_names_of g)).
  Proof.
    intros Hraw Hdom. induction l as [|x l IH]; intros pre ins m Hg H1 H2 H3 H4 H5.
    - cbn. rewrite app_nil_r in Hg. unfold in_names_of. rewrite Hg. auto.
    - assert (Hxi : In (fst x) (in_names_of g)).
      { unfold in_names_of. rewrite Hg, map_app. apply in_or_app. right. left. reflexivity. }
      assert (HxU : In (fst x) U) by (unfold graph_names; apply in_or_app; left; exact Hxi).
      assert (Hxne : fst x <> ""%string).
      { intros E. apply (lg_nonempty g legal). rewrite <- E, !in_app_iff. auto. }
      assert (Hg' : pg_in g = (pre ++ [x]) ++ l) by (rewrite Hg, <- app_assoc; reflexivity).
      cbn [init_inputs]. destruct (sget om (fst x)) as [ij|] eqn:Ex.
      + assert (Hin : In (fst x) (init_names_of g)) by (apply Hdom; [exact HxU|congruence]).
        apply (IH (pre ++ [x])); try assumption.
        * intros o i Ho Hs. destruct (H2 o i Ho Hs) as (A & B & C). split; [|auto].
          rewrite map_app. apply in_or_app. left. exact A.
        * intros o Ho Hn. rewrite map_app, in_app_iff in Ho. destruct Ho as [Ho|[<-|[]]]; [auto|contradiction].
        * rewrite map_app, filter_app, map_app. cbn. unfold not_init at 2.
          replace (mem_str (fst x) (init_names_of g)) with true by (symmetry; apply mem_str_In; exact Hin).
          cbn. rewrite app_nil_r. exact H5.
      + assert (Hnin : ~ In (fst x) (init_names_of g)).
        { intros Hin. apply Hdom in Hin; [contradiction|exact HxU]. }
        assert (Hsx : sget om (san (fst x)) = None).
        { destruct (sget om (san (fst x))) eqn:E; [|reflexivity]. exfalso. apply (Hraw (fst x)); [exact HxU|congruence|exact Ex]. }
        assert (Hsne : san (fst x) <> ""%string) by (apply (lg_san_nonempty g legal); assumption).
        assert (Hgi : exists ty, graph_input outer x = mkArg (san (fst x)) ty VDynamic).
        { unfold graph_input. destruct (snd x) as [t|]; [eexists; reflexivity|].
          destruct (sget outer (san (fst x))) as [a|] eqn:Ea; [eexists; rewrite (outer_dyn _ _ Ea); reflexivity|].
          destruct (sget outer (fst x)) as [a|] eqn:Eb; [eexists; rewrite (outer_dyn _ _ Eb); reflexivity|].
          unfold from_name. destruct (String.eqb_spec (san (fst x)) ""); [contradiction|]. eexists. reflexivity. }
        destruct Hgi as [ty Hgi].
        assert (Hnew : forall o, In o U -> o <> fst x -> o <> san (fst x) /\ san o <> fst x /\ san o <> san (fst x)).
        { intros o Ho Hne. repeat split; intros E; apply Hne, san_key; auto. }
        change (let '(ins', m') := init_inputs outer om l (ins ++ [graph_input outer x]) (put2 m (fst x) (length ins)) in
          (forall o, In o U -> sget m' o = sget m' (san o)) /\
          (forall o i, In o U -> sget m' o = Some i -> In o (in_names_of g) /\ sget om (san o) = None /\
             exists ty, nth_error ins' i = Some (mkArg (san o) ty VDynamic)) /\
          (forall o, In o (in_names_of g) -> ~ In o (init_names_of g) -> sget m' o <> None) /\
          sget m' "" = None /\
          map aname ins' = map san (filter not_init (in_names_of g))).
        apply (IH (pre ++ [x])); try assumption.
        * intros o Ho. destruct (string_dec o (fst x)) as [->|Hox]; [rewrite put2_raw, put2_same; reflexivity|].
          destruct (Hnew o Ho Hox) as (N1 & N2 & N3). rewrite !put2_oth by assumption. auto.
        * intros o i Ho Hs. destruct (string_dec o (fst x)) as [->|Hox].
          -- rewrite put2_raw in Hs. inversion Hs; subst. split; [rewrite map_app; apply in_or_app; right; left; reflexivity|].
             split; [exact Hsx|]. exists ty. rewrite nth_error_app2, Nat.sub_diag by lia. cbn. rewrite Hgi. reflexivity.
          -- destruct (Hnew o Ho Hox) as (N1 & N2 & N3). rewrite put2_oth in Hs by assumption.
             destruct (H2 o i Ho Hs) as (A & B & ty' & C). split; [rewrite map_app; apply in_or_app; left; exact A|].
             split; [exact B|]. exists ty'. rewrite nth_error_app1; [exact C|]. apply nth_error_Some. congruence.
        * intros o Ho Hn. rewrite map_app, in_app_iff in Ho.
          destruct (string_dec o (fst x)) as [->|Hox]; [rewrite put2_raw; discriminate|].
          destruct Ho as [Ho|[E|[]]]; [|congruence].
          assert (HoU : In o U).
          { unfold graph_names, in_names_of. rewrite Hg, map_app, !in_app_iff. auto. }
          destruct (Hnew o HoU Hox) as (N1 & N2 & N3). rewrite put2_oth by assumption. auto.
        * rewrite put2_oth by congruence. exact H4.
        * rewrite !map_app, filter_app, map_app, H5, Hgi. cbn. unfold not_init at 3.
          replace (mem_str (fst x) (init_names_of g)) with false by (symmetry; apply mem_str_false; exact Hnin).
          reflexivity.
  Qed.

  Lemma start_ok outs vi r (e ie : env) :
    (forall o v, In o U -> o <> ""%string -> e o = Some v -> ie (san o) = Some v) ->
    inv (istate [] outs [] [] vi r) [] tru e ie.
  Proof.
    intros He. split; cbn; try (intros; contradiction); try discriminate; try reflexivity; auto.
    - split; [reflexivity|]. intros ij H. discriminate.
    - intros o v Ho Hne _ Hv.
      assert (Hs : san o <> ""%string) by (apply (lg_san_nonempty g legal); assumption).
      assert (Hd : forall b, asrc b = VDynamic -> outer_ref (san o) b = mkArg (san o) (aty b) VDynamic).
      { intros b Hb. unfold outer_ref, is_constant. rewrite Hb. reflexivity. }
      assert (Hev : forall ty, arg_eval static ie (mkArg (san o) ty VDynamic) = Some (Some v)).
      { intros ty. unfold arg_eval. cbn. destruct (String.eqb_spec (san o) ""); [contradiction|].
        rewrite (He o v Ho Hne Hv). reflexivity. }
      unfold init_in. cbn. destruct (sget outer (san o)) as [b|] eqn:Eb.
      { eexists. split; [reflexivity|]. rewrite Hd by (eapply outer_dyn; eassumption). apply Hev. }
      destruct (sget outer o) as [b|] eqn:Eb2.
      { eexists. split; [reflexivity|]. rewrite Hd by (eapply outer_dyn; eassumption). apply Hev. }
      eexists. split; [reflexivity|]. unfold from_name. destruct (String.eqb_spec (san o) ""); [contradiction|]. apply Hev.
    - intros x [].
  Qed.

  Lemma base_ok r (e ie : env) :
    (forall o v, In o U -> o <> ""%string -> e o = Some v -> ie (san o) = Some v) ->
    prefix (g_store (new_state tinfo outer r g)) final ->
    exists ie', run sem static ie (g_nodes (new_state tinfo outer r g)) = Some ie' /\
      inv (new_state tinfo outer r g) (init_names_of g) (need (pg_nodes g)) (o_init cval e (pg_init g)) ie' /\
      (forall o, In o (in_names_of g) -> ~ In o (init_names_of g) -> sget (g_inmap (new_state tinfo outer r g)) o <> None) /\
      map aname (g_inputs (new_state tinfo outer r g)) = map san (filter not_init (in_names_of g)).
  Proof.
    intros He Hpre. unfold new_state in *.
    destruct (process_initializers tinfo r [] (pg_init g)) as [[[r1 store] nodes] cm] eqn:Ep.
    set (outs := map graph_output (pg_out g)) in *. set (vi := init_vinfo (pg_vinfo g) []) in *.
    set (om := init_outmap 0 (pg_init g) []) in *.
    destruct (inits_ok outs vi (pg_init g) [] eq_refl [] [] [] r [] e ie) with (r1 := r1) (store1 := store)
      (nodes := nodes) (cm1 := cm) as (ie' & Hrun & I & Hraw & Hdom).
    { apply start_ok. exact He. }
    { intros o _ H. exact H. }
    { intros o _ H. exfalso. apply H. reflexivity. }
    { reflexivity. }
    { exact Ep. }
    { destruct (init_inputs outer om (pg_in g) [] []) as [ins im]. exact Hpre. }
    cbn [app length] in I, Hraw, Hdom. fold om in I, Hraw, Hdom. rewrite app_nil_r in I.
    assert (Hdom2 : forall o, In o U -> sget om o <> None <-> In o (init_names_of g)).
    { intros o Ho. split; [apply Hdom; exact Ho|]. intros Hi. apply Hraw; [exact Ho|].
      apply (i_def _ _ _ _ _ I o); [|exact Logic.I|exact Hi].
      intros ->. apply (lg_nonempty g legal). rewrite !in_app_iff. auto. }
    pose proof (inputs_init om Hraw Hdom2 (pg_in g) [] [] [] eq_refl) as Hin.
    destruct (init_inputs outer om (pg_in g) [] []) as [ins im] eqn:Ein.
    destruct Hin as (H1 & H2 & H3 & H4 & H5); try reflexivity; try discriminate; try (intros o []).
    exists ie'. split; [exact Hrun|]. split; [|split; [exact H3|exact H5]].
    assert (I' : inv (mkS nodes ins outs im om store cm vi outer r1) (init_names_of g) tru (o_init cval e (pg_init g)) ie').
    { split; cbn.
      - exact (i_keep _ _ _ _ _ I).
      - exact H1.
      - intros o Ho Hs. destruct (sget im o) as [i|] eqn:Ei; [|contradiction].
        destruct (H2 o i Ho Ei) as (A & B & _). auto.
      - intros o i Ho Hs. destruct (H2 o i Ho Hs) as (_ & _ & C). exact C.
      - exact (i_outidx _ _ _ _ _ I).
      - split; [exact H4|]. exact (proj2 (i_empty _ _ _ _ _ I)).
      - reflexivity.
      - intros o v Ho Hne Hn Hv. destruct (i_val _ _ _ _ _ I o v Ho Hne Hn Hv) as (a & Ha & Hev).
        unfold init_in in *. cbn in *. destruct (sget im o) as [i|] eqn:Ei; [|exists a; auto].
        destruct (H2 o i Ho Ei) as (A & B & ty & C). rewrite C. eexists. split; [reflexivity|].
        destruct (init_in_names _ _ _ _ _ o a I Ho Hne) as [[N1 N2]|N].
        + unfold init_in. cbn. exact Ha.
        + unfold arg_eval in Hev |- *. rewrite N1, N2 in Hev. cbn. exact Hev.
        + exfalso. rewrite B in Ha. assert (Hno : sget om o = None).
          { destruct (sget om o) eqn:E; [|reflexivity]. exfalso. apply (i_keep _ _ _ _ _ I o Ho Hne); [cbn; congruence|exact B]. }
          rewrite Hno in Ha. cbn in N. destruct (i_fresh _ _ _ _ _ I _ N) as (t & c & k & Ht & _ & Eg).
          assert (Hs : san o <> ""%string) by (apply (lg_san_nonempty g legal); assumption).
          assert (Hd : forall b, asrc b = VDynamic -> outer_ref (san o) b = mkArg (san o) (aty b) VDynamic).
          { intros b Hb. unfold outer_ref, is_constant. rewrite Hb. reflexivity. }
          assert (Han : aname a = san o).
          { destruct (sget outer (san o)) as [b|] eqn:Eb.
            { inversion Ha; subst. rewrite Hd by (eapply outer_dyn; eassumption). reflexivity. }
            destruct (sget outer o) as [b|] eqn:Eb2.
            { inversion Ha; subst. rewrite Hd by (eapply outer_dyn; eassumption). reflexivity. }
            inversion Ha; subst. unfold from_name. destruct (String.eqb_spec (san o) ""); [contradiction|]. reflexivity. }
          apply (lg_not_generated g legal o Ho). exists t, c, k. split; [exact Ht|]. congruence.
      - exact (i_done _ _ _ _ _ I).
      - exact (i_def _ _ _ _ _ I).
      - exact (i_cmap _ _ _ _ _ I).
      - exact (i_fresh _ _ _ _ _ I). }
    eapply inv_need; [|exact I']. intros o _. exact Logic.I.
  Qed.

  (** * Graph outputs *)
  Lemma outputs_ok s done (ef ie : env) :
    inv s done (need []) ef ie ->
    (forall o, In o (init_names_of g ++ produced (pg_nodes g)) -> need [] o -> In o done) ->
    (forall o, In o (in_names_of g) -> ~ In o (init_names_of g) -> sget (g_inmap s) o <> None) ->
    forall l r, incl l (pg_out g) -> all_some (map (find_output s) (map graph_output l)) = Some r ->
    Forall2 (fun x a => forall v, ef (fst x) = Some v -> arg_eval static ie a = Some (Some v)) l (keep_some r).
  Proof.
    intros I Hd Hin. induction l as [|x l IH]; intros r Hl H.
    - inversion H; subst. constructor.
    - cbn [map all_some] in H. destruct (find_output s (graph_output x)) as [oa|] eqn:Ef; [|discriminate].
      destruct (all_some (map (find_output s) (map graph_output l))) as [r'|] eqn:Er; [|discriminate].
      cbn in H. inversion H; subst. clear H.
      specialize (IH r' (fun y Hy => Hl y (or_intror Hy)) eq_refl).
      assert (Hxo : In (fst x) (map fst (pg_out g))) by (apply in_map, Hl; left; reflexivity).
      assert (HxU : In (fst x) U) by (unfold graph_names; rewrite !in_app_iff; auto).
      assert (Hxne : fst x <> ""%string).
      { intros E. apply (lg_nonempty g legal). rewrite <- E, !in_app_iff. auto. }
      assert (Hn : need [] (fst x)) by (right; exact Hxo).
      assert (Hsne : san (fst x) <> ""%string) by (apply (lg_san_nonempty g legal); assumption).
      assert (Hname : aname (graph_output x) = san (fst x)).
      { unfold graph_output, from_name. destruct (snd x); [reflexivity|].
        destruct (String.eqb_spec (san (fst x)) ""); [contradiction|reflexivity]. }
      unfold find_output in Ef. rewrite Hname in Ef.
      assert (Hfound : exists a, oa = Some a /\ init_in s (fst x) = Some a).
      { destruct (sget (g_outmap s) (san (fst x))) as [ij|] eqn:Eo.
        - destruct (node_output s ij) as [a|] eqn:Ea; [|discriminate]. cbn in Ef. injection Ef as <-. exists a. split; [reflexivity|].
          unfold init_in. destruct (sget (g_inmap s) (fst x)) as [i|] eqn:Ei; [|rewrite Eo; exact Ea].
          destruct (i_inkeys _ _ _ _ _ I (fst x) HxU) as [_ Hno]; [congruence|]. congruence.
        - assert (Hi : In (fst x) (in_names_of g) /\ ~ In (fst x) (init_names_of g)).
          { assert (Hnd : ~ In (fst x) done) by (intros Hx; exact (i_def _ _ _ _ _ I (fst x) Hxne Hn Hx Eo)).
            assert (Hnu : ~ In (fst x) (init_names_of g ++ produced (pg_nodes g))) by (intros Hx; apply Hnd, Hd; assumption).
            rewrite in_app_iff in Hnu. destruct (lg_outputs g legal (fst x) Hxo) as [Q|[Q|Q]]; tauto. }
          destruct Hi as [Hi1 Hi2].
          destruct (sget (g_inmap s) (fst x)) as [i|] eqn:Ei; [|exfalso; exact (Hin _ Hi1 Hi2 Ei)].
          pose proof (i_in _ _ _ _ _ I (fst x) HxU) as Es. rewrite Ei in Es. rewrite <- Es in Ef.
          destruct (i_inarg _ _ _ _ _ I (fst x) i HxU Ei) as [ty Ea]. rewrite Ea in Ef. cbn in Ef. injection Ef as <-.
          eexists. split; [reflexivity|]. unfold init_in. rewrite Ei. exact Ea. }
      destruct Hfound as (a & -> & Ha). cbn. constructor; [|exact IH].
      intros v Hv. destruct (i_val _ _ _ _ _ I (fst x) v HxU Hxne Hn Hv) as (a' & Ha' & Hev). congruence.
  Qed.
End Proof.


Lemma import_values {V} (osem : string -> list (string * attr) -> nat -> list (option V) -> option (list V)) (cval : attr -> V)
    tinfo lift outer r g ns ins outs store :
  onnx_laws osem cval -> legal_graph g ->
  (forall k a, sget outer k = Some a -> asrc a = VDynamic) -> sget outer "" = None ->
  import tinfo lift outer r g = Some (ns, ins, outs, store) ->
  forall (e ef ie : string -> option V),
    (forall o v, In o (graph_names g) -> o <> ""%string -> e o = Some v -> ie (san o) = Some v) ->
    o_run osem cval e g = Some ef ->
    map aname ins = map san (filter (fun x => negb (mem_str x (init_names_of g))) (in_names_of g)) /\
    exists ie', run (ir_sem osem) (static_of cval store) ie ns = Some ie' /\
      Forall2 (fun x a => forall v, ef (fst x) = Some v -> arg_eval (static_of cval store) ie' a = Some (Some v)) (pg_out g) outs.
Proof.
  intros laws legal Hdyn Hemp Himp e ef ie He Hrun. unfold import in Himp.
  destruct (convert_nodes tinfo lift (new_state tinfo outer r g) (pg_nodes g)) as [s|] eqn:Ec; [|discriminate].
  destruct (consume s) as [[[ns0 ins0] outs0]|] eqn:Eco; [|discriminate]. injection Himp as <- <- <- <-.
  unfold consume in Eco. destruct (all_some (map (find_output s) (g_outputs s))) as [os|] eqn:Eo; [|discriminate].
  injection Eco as <- <- <-.
  destruct (convert_other tinfo lift _ _ _ _ (le_n _) Ec) as (P1 & P2 & P3 & P4).
  assert (Hgo : g_outputs (new_state tinfo outer r g) = map graph_output (pg_out g)).
  { unfold new_state. destruct (process_initializers _ _ _ _) as [[[? ?] ?] ?]. destruct (init_inputs _ _ _ _ _). reflexivity. }
  rewrite P4, Hgo in Eo.
  destruct (base_ok osem cval tinfo lift outer g (g_store s) legal Hdyn r e ie He P1) as (ie1 & R1 & I1 & Hin & Hnames).
  unfold o_run in Hrun.
  destruct (nodes_ok osem cval tinfo lift outer g (g_store s) laws legal Hdyn Hemp _ (pg_nodes g) [] _ (init_names_of g)
    (o_init cval e (pg_init g)) ie1 ef s (le_n _) eq_refl I1) as (ns2 & ie2 & done & E2 & R2 & I2 & Hd2).
  { intros o Ho _. cbn in Ho. rewrite app_nil_r in Ho. exact Ho. }
  { exact Ec. }
  { apply prefix_refl. }
  { exact Hrun. }
  split; [rewrite P3; exact Hnames|].
  exists ie2. split.
  - rewrite E2, run_app, R1. exact R2.
  - eapply outputs_ok; try eassumption.
    + intros o H1 H2. rewrite P2. auto.
    + apply incl_refl.
Qed.

(** With one value per output every graph runs. *)
Definition usem (_ : string) (_ : list (string * attr)) (n : nat) (_ : list (option unit)) : option (list unit) :=
  Some (repeat tt n).

Lemma usem_laws : onnx_laws usem (fun _ => tt).
Proof. split; reflexivity. Qed.

Lemma usem_nodes : forall l (e : string -> option unit), (forall x, e x = Some tt) -> exists e', o_nodes usem e l = Some e'.
Proof.
  assert (Hin : forall (e : string -> option unit), (forall x, e x = Some tt) -> forall l, exists vs, o_inputs e l = Some vs).
  { intros e He. induction l as [|x l [vs IH]]; [eexists; reflexivity|]. cbn. rewrite He, IH.
    destruct (String.eqb x ""); eexists; reflexivity. }
  assert (Hb : forall xs (e e' : string -> option unit), (forall x, e x = Some tt) -> bind e xs (repeat tt (length xs)) = Some e' ->
    forall x, e' x = Some tt).
  { induction xs as [|x xs IH]; cbn; intros e e' He H.
    - inversion H; subst. exact He.
    - apply (IH (bind1 e x tt) e'); [|exact H]. intros y. unfold bind1. destruct (String.eqb x y); auto. }
  induction l as [|p l IH]; intros e He; [eexists; reflexivity|]. cbn [o_nodes]. unfold o_node.
  destruct (Hin e He (p_in p)) as [vs ->]. cbn [usem].
  destruct (bind_total (p_out p) (repeat tt (length (p_out p))) e) as [e1 E1]; [rewrite repeat_length; reflexivity|].
  rewrite E1. apply IH. eapply Hb; eassumption.
Qed.

Lemma import_shape tinfo lift outer r g ns ins outs store :
  legal_graph g ->
  (forall k a, sget outer k = Some a -> asrc a = VDynamic) -> sget outer "" = None ->
  import tinfo lift outer r g = Some (ns, ins, outs, store) ->
  map aname ins = map san (filter (fun x => negb (mem_str x (init_names_of g))) (in_names_of g)) /\
  length outs = length (pg_out g).
Proof.
  intros legal Hdyn Hemp Himp.
  assert (Hall : forall l (e : string -> option unit), (forall x, e x = Some tt) -> forall x, o_init (fun _ => tt) e l x = Some tt).
  { induction l as [|[y p] l IH]; cbn; intros e He; [exact He|]. apply IH. intros x. unfold bind1. destruct (String.eqb y x); auto. }
  destruct (usem_nodes (pg_nodes g) (o_init (fun _ => tt) (fun _ => Some tt) (pg_init g))) as [ef Hef].
  { apply Hall. reflexivity. }
  destruct (import_values usem (fun _ => tt) tinfo lift outer r g ns ins outs store usem_laws legal Hdyn Hemp Himp
    (fun _ => Some tt) ef (fun _ => Some tt)) as (H1 & ie' & _ & H2).
  - intros o v _ _ H. exact H.
  - exact Hef.
  - split; [exact H1|]. symmetry. eapply Forall2_len. exact H2.
Qed.

(** * Checking that a graph is legal *)
Fixpoint contains (p s : string) : bool :=
  String.prefix p s || match s with String _ s' => contains p s' | EmptyString => false end.

Lemma prefix_app p b : String.prefix p (p ++ b) = true.
Proof.
  induction p as [|c p IH]; [destruct b; reflexivity|]. cbn. destruct (ascii_dec c c); [exact IH|contradiction].
Qed.
Lemma contains_app p b : forall a, contains p (a ++ p ++ b) = true.
Proof.
  induction a as [|c a IH]; cbn [String.append].
  - assert (H : forall s, String.prefix p s = true -> contains p s = true) by (intros s H; destruct s; cbn [contains]; rewrite H; reflexivity).
    apply H, prefix_app.
  - cbn [contains]. rewrite IH. apply orb_true_r.
Qed.
Lemma generated_out s : contains "_out" s = false -> ~ generated s.
Proof.
  intros H (t & c & k & _ & ->). unfold output_name in H. rewrite contains_app in H. discriminate.
Qed.

Fixpoint private_check (outs : list string) (l : list pnode) : bool :=
  match l with
  | p :: ((q :: r) as t) =>
      (if (String.eqb (lower (p_op p)) "matmul" && String.eqb (lower (p_op q)) "add")%bool then
         forallb (fun x => negb (mem_str x (p_in q)) || negb (mem_str x (consumed r) || mem_str x outs)) (p_out p)
       else true) && private_check outs t
  | _ => true
  end.

Lemma private_check_ok outs : forall nodes, private_check outs nodes = true ->
  forall l p q r x, nodes = l ++ p :: q :: r ->
    lower (p_op p) = "matmul"%string -> lower (p_op q) = "add"%string ->
    In x (p_out p) -> In x (p_in q) -> ~ In x (consumed r) /\ ~ In x outs.
Proof.
  induction nodes as [|n nodes IH]; intros H l p q r x E Hp Hq Hx Hy.
  - destruct l; discriminate.
  - destruct l as [|n' l].
    + injection E as -> E2. subst nodes. cbn -[consumed] in H. rewrite Hp, Hq in H. cbn -[consumed] in H.
      apply andb_true_iff in H. destruct H as [H _]. rewrite forallb_forall in H. specialize (H x Hx).
      replace (mem_str x (p_in q)) with true in H by (symmetry; apply mem_str_In; exact Hy). cbn in H.
      apply negb_true_iff, orb_false_iff in H. destruct H as [H1 H2]. split; apply mem_str_false; assumption.
    + injection E as -> E2. apply (IH) with (l := l) (p := p) (q := q); try assumption.
      destruct nodes as [|a [|b rest]]; [destruct l; discriminate|reflexivity|].
      cbn [private_check] in H. apply andb_true_iff in H. exact (proj2 H).
Qed.

Fixpoint distinct (l : list string) : bool :=
  match l with
  | [] => true
  | x :: r => negb (mem_str x r) && distinct r
  end.
Lemma distinct_ok : forall l, distinct l = true -> NoDup l.
Proof.
  induction l as [|x l IH]; cbn; [constructor|]. intros H. apply andb_true_iff in H. destruct H as [H1 H2].
  apply negb_true_iff, mem_str_false in H1. constructor; auto.
Qed.

Definition legal_check (g : pgraph) : bool :=
  let U := graph_names g in
  distinct (init_names_of g ++ filter (fun x => negb (String.eqb x "")) (produced (pg_nodes g))) &&
  forallb (fun x => negb (mem_str x (produced (pg_nodes g)))) (in_names_of g) &&
  distinct (in_names_of g) &&
  negb (mem_str "" (in_names_of g ++ init_names_of g ++ map fst (pg_out g))) &&
  forallb (fun a => forallb (fun b => implb (String.eqb (san a) (san b)) (String.eqb a b)) U) U &&
  forallb (fun a => String.eqb a "" || negb (String.eqb (san a) "")) U &&
  forallb (fun a => negb (contains "_out" (san a))) U &&
  private_check (map fst (pg_out g)) (pg_nodes g) &&
  forallb (fun x => mem_str x (in_names_of g) || mem_str x (init_names_of g) || mem_str x (produced (pg_nodes g))) (map fst (pg_out g)).

Lemma legal_check_ok g : (forall p, In p (pg_nodes g) -> legal_node p) -> legal_check g = true -> legal_graph g.
Proof.
  intros Hn H. unfold legal_check in H. cbn zeta in H.
  repeat match type of H with (_ && _)%bool = true => apply andb_true_iff in H; let H' := fresh "K" in destruct H as [H H'] end.
  split.
  - exact Hn.
  - apply distinct_ok. exact H.
  - rewrite forallb_forall in K6. intros x Hx. specialize (K6 x Hx). apply negb_true_iff, mem_str_false in K6. exact K6.
  - apply distinct_ok. exact K5.
  - apply negb_true_iff, mem_str_false in K4. exact K4.
  - intros a b Ha Hb E. rewrite forallb_forall in K3. specialize (K3 a Ha). rewrite forallb_forall in K3. specialize (K3 b Hb).
    apply String.eqb_eq in E. rewrite E in K3. apply String.eqb_eq. exact K3.
  - intros a Ha Hne E. rewrite forallb_forall in K2. specialize (K2 a Ha). rewrite E in K2. cbn in K2.
    rewrite orb_false_r in K2. apply String.eqb_eq in K2. contradiction.
  - intros a Ha. apply generated_out. rewrite forallb_forall in K1. specialize (K1 a Ha). apply negb_true_iff in K1. exact K1.
  - intros l p q r x E. apply (private_check_ok _ _ K0 l p q r x E).
  - intros x Hx. rewrite forallb_forall in K. specialize (K x Hx). rewrite !orb_true_iff in K.
    destruct K as [[K|K]|K]; apply mem_str_In in K; auto.
Qed.
