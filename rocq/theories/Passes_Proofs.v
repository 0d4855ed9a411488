From Verif Require Import IR_Model IR_Spec IR_Proofs Passes_Model Passes_Spec.

(* ------------------------------------------------------------------ *)
(** * Dead nodes *)

Section Dead.
  Context {V : Type}.
  Variable sem : string -> list (string * attr) -> nat -> list (option V) -> option (list V).
  Variable static : N -> option V.
  Notation env := (string -> option V).

  (** Dropping nodes whose outputs are outside a set that contains all inputs. *)
  Lemma run_filter (keep : rnode -> bool) (L : list string) : forall nodes (e1 e2 e1' : env),
    (forall n, In n nodes -> keep n = false -> forall x, In x (out_names n) -> ~ In x L) ->
    (forall n i, In n nodes -> In i (ninputs n) -> In (aname i) L) ->
    (forall x, In x L -> e1 x = e2 x) ->
    run sem static e1 nodes = Some e1' ->
    exists e2', run sem static e2 (filter keep nodes) = Some e2' /\
      forall x, In x L -> e1' x = e2' x.
  Proof.
    induction nodes as [|n r IH]; intros e1 e2 e1' Hk Hi He H; cbn in H |- *.
    - exists e2. split; [reflexivity|]. inversion H; subst. exact He.
    - destruct (node_eval sem static e1 n) as [e1n|] eqn:En; [|discriminate].
      destruct (keep n) eqn:Kn.
      + unfold node_eval in En.
        destruct (args_eval static e1 (ninputs n)) as [vs|] eqn:Ea; [|discriminate].
        destruct (sem (ntype n) (nattrs n) (length (noutputs n)) vs) as [outs|] eqn:Es; [|discriminate].
        destruct (bind_ext _ _ _ e2 _ En) as [e2n [Hb Hy]].
        assert (Ea2 : args_eval static e2 (ninputs n) = Some vs).
        { rewrite <- Ea. apply args_eval_agree. intros a Ha. symmetry. apply He.
          eapply Hi; [left; reflexivity|exact Ha]. }
        cbn. unfold node_eval. rewrite Ea2, Es, Hb.
        eapply IH; [| | |exact H].
        * intros m Hm. apply Hk. right; exact Hm.
        * intros m i Hm. apply Hi. right; exact Hm.
        * intros x Hx. apply Hy. right. apply He; exact Hx.
      + eapply IH; [| | |exact H].
        * intros m Hm. apply Hk. right; exact Hm.
        * intros m i Hm. apply Hi. right; exact Hm.
        * intros x Hx. rewrite <- He by exact Hx. eapply node_eval_other; [exact En|].
          intros Hin. eapply Hk; [left; reflexivity|exact Kn|exact Hin|exact Hx].
  Qed.

  Lemma dead_step_run outputs nodes (e e' : env) :
    run sem static e nodes = Some e' ->
    exists e2, run sem static e (dead_step outputs nodes) = Some e2 /\
      forall x, In x (map aname outputs) -> e2 x = e' x.
  Proof.
    intros H. unfold dead_step.
    destruct (run_filter (fun n => existsb (fun o => mem_str (aname o) (live_names nodes outputs)) (noutputs n))
                (live_names nodes outputs) nodes e e e') as [e2 [H2 Hx]].
    - intros n Hn Hf x Hx Hl. unfold out_names in Hx. apply in_map_iff in Hx. destruct Hx as [o [Ho Hin]].
      assert (Ht : existsb (fun o => mem_str (aname o) (live_names nodes outputs)) (noutputs n) = true).
      { apply existsb_exists. exists o. split; [exact Hin|]. apply mem_str_In. rewrite Ho. exact Hl. }
      congruence.
    - intros n i Hn Hi. unfold live_names. apply in_app_iff. right.
      apply in_flat_map. exists n. split; [exact Hn|]. apply in_map. exact Hi.
    - reflexivity.
    - exact H.
    - exists e2. split; [exact H2|]. intros x Hin. symmetry. apply Hx.
      unfold live_names. apply in_app_iff. left; exact Hin.
  Qed.

  Lemma dead_loop_run outputs : forall fuel nodes (e e' : env),
    run sem static e nodes = Some e' ->
    exists e2, run sem static e (dead_loop fuel outputs nodes) = Some e2 /\
      forall x, In x (map aname outputs) -> e2 x = e' x.
  Proof.
    induction fuel as [|f IH]; intros nodes e e' H; cbn.
    - exists e'. split; [exact H|reflexivity].
    - destruct (dead_step_run outputs nodes e e' H) as [e2 [H2 Hx]].
      destruct (Nat.eqb _ _).
      + exists e2. split; assumption.
      + destruct (IH _ _ _ H2) as [e3 [H3 Hx3]]. exists e3. split; [exact H3|].
        intros x Hin. rewrite Hx3 by exact Hin. apply Hx; exact Hin.
  Qed.
End Dead.

Lemma filter_length_le {A} (f : A -> bool) l : length (filter f l) <= length l.
Proof. induction l as [|a l IH]; cbn; [lia|]. destruct (f a); cbn; lia. Qed.

Lemma filter_length_eq {A} (f : A -> bool) l : length (filter f l) = length l -> filter f l = l.
Proof.
  induction l as [|a l IH]; cbn; [reflexivity|]. destruct (f a); cbn; intros H.
  - f_equal. apply IH. lia.
  - pose proof (filter_length_le f l). lia.
Qed.

Lemma dead_step_le outputs nodes : length (dead_step outputs nodes) <= length nodes.
Proof. apply filter_length_le. Qed.

Lemma dead_loop_fixpoint outputs : forall fuel nodes,
  length nodes < fuel ->
  dead_step outputs (dead_loop fuel outputs nodes) = dead_loop fuel outputs nodes.
Proof.
  induction fuel as [|f IH]; intros nodes Hl; [lia|]. cbn.
  destruct (Nat.eqb_spec (length (dead_step outputs nodes)) (length nodes)) as [E|E].
  - assert (E' : dead_step outputs nodes = nodes) by (apply filter_length_eq; exact E).
    rewrite E'. exact E'.
  - apply IH. pose proof (dead_step_le outputs nodes). lia.
Qed.

Lemma dead_loop_incl outputs : forall fuel nodes n, In n (dead_loop fuel outputs nodes) -> In n nodes.
Proof.
  induction fuel as [|f IH]; intros nodes n; cbn; [tauto|].
  destruct (Nat.eqb _ _).
  - unfold dead_step. rewrite filter_In. tauto.
  - intros H. apply IH in H. unfold dead_step in H. rewrite filter_In in H. tauto.
Qed.

Lemma ordered_filter (f : rnode -> bool) nodes : ordered nodes -> ordered (filter f nodes).
Proof.
  induction nodes as [|n s IH]; cbn; [tauto|]. intros [H1 H2].
  destruct (f n); [|apply IH; exact H2]. cbn. split; [|apply IH; exact H2].
  intros i m Hi Hm. apply H1; [exact Hi|]. destruct Hm as [Hm|Hm]; [left; exact Hm|].
  right. apply filter_In in Hm. tauto.
Qed.

Lemma ordered_dead_loop outputs : forall fuel nodes, ordered nodes -> ordered (dead_loop fuel outputs nodes).
Proof.
  induction fuel as [|f IH]; intros nodes H; cbn; [exact H|].
  destruct (Nat.eqb _ _); [|apply IH]; apply ordered_filter; exact H.
Qed.

Lemma ordered_app p n s i m :
  ordered (p ++ n :: s) -> In m (p ++ [n]) -> In i (ninputs m) -> ~ In (aname i) (out_names n).
Proof.
  induction p as [|a p IH]; cbn.
  - intros [H _] [<-|[]] Hi. apply (H i n Hi). left; reflexivity.
  - intros [H Ho] Hm Hi. destruct Hm as [<-|Hm].
    + apply (H i n Hi). right. apply in_app_iff. right; left; reflexivity.
    + apply IH; assumption.
Qed.

Lemma fixpoint_needed outputs R :
  ordered R -> dead_step outputs R = R -> forall n, In n R -> needed R outputs n.
Proof.
  intros Ho Hf.
  assert (Hall : forall s p, R = p ++ s -> Forall (needed R outputs) s).
  { induction s as [|n s IH]; intros p HR; [constructor|].
    assert (Hs : Forall (needed R outputs) s).
    { apply (IH (p ++ [n])). rewrite <- app_assoc. exact HR. }
    constructor; [|exact Hs].
    assert (HnR : In n R) by (rewrite HR; apply in_app_iff; right; left; reflexivity).
    pose proof HnR as Hn. rewrite <- Hf in Hn. unfold dead_step in Hn. apply filter_In in Hn.
    destruct Hn as [_ Hn]. apply existsb_exists in Hn. destruct Hn as [o [Hoo Hl]].
    apply mem_str_In in Hl. unfold live_names in Hl. apply in_app_iff in Hl.
    destruct Hl as [Hl|Hl].
    - apply in_map_iff in Hl. destruct Hl as [g [Hg Hin]].
      eapply needed_output; eassumption.
    - apply in_flat_map in Hl. destruct Hl as [m [Hm Hl]]. apply in_map_iff in Hl.
      destruct Hl as [i [Hi Hin]].
      eapply needed_input; [exact HnR|exact Hoo|exact Hin|exact Hi|].
      rewrite HR in Hm. apply in_app_iff in Hm.
      destruct Hm as [Hm|[<-|Hm]].
      + exfalso. rewrite HR in Ho. eapply (ordered_app p n s i m Ho); [apply in_app_iff; left; exact Hm|exact Hin|].
        rewrite Hi. apply in_map. exact Hoo.
      + exfalso. rewrite HR in Ho. eapply (ordered_app p n s i n Ho); [apply in_app_iff; right; left; reflexivity|exact Hin|].
        rewrite Hi. apply in_map. exact Hoo.
      + rewrite Forall_forall in Hs. apply Hs. exact Hm. }
  intros n Hn. pose proof (Hall R [] eq_refl) as H. rewrite Forall_forall in H. apply H. exact Hn.
Qed.

Lemma needed_incl outputs R nodes n :
  (forall m, In m R -> In m nodes) -> needed R outputs n -> needed nodes outputs n.
Proof.
  intros Hi. induction 1 as [n o g H1 H2 H3 H4|n o m i H1 H2 H3 H4 H5 IH].
  - eapply needed_output; eauto.
  - eapply needed_input; eauto.
Qed.

Lemma needed_In outputs nodes n : needed nodes outputs n -> In n nodes.
Proof. destruct 1; assumption. Qed.

Lemma dead_step_keeps outputs nodes cur :
  (forall m, needed nodes outputs m -> In m cur) ->
  forall n, needed nodes outputs n -> In n (dead_step outputs cur).
Proof.
  intros Hc n Hn. unfold dead_step. apply filter_In. split; [apply Hc; exact Hn|].
  apply existsb_exists. destruct Hn as [n o g H1 H2 H3 H4|n o m i H1 H2 H3 H4 H5];
    exists o; (split; [exact H2|]); apply mem_str_In; unfold live_names; apply in_app_iff.
  - left. rewrite <- H4. apply in_map. exact H3.
  - right. apply in_flat_map. exists m. split; [apply Hc; exact H5|].
    rewrite <- H4. apply in_map. exact H3.
Qed.

Lemma dead_loop_keeps outputs nodes : forall fuel cur,
  (forall m, needed nodes outputs m -> In m cur) ->
  forall n, needed nodes outputs n -> In n (dead_loop fuel outputs cur).
Proof.
  induction fuel as [|f IH]; intros cur Hc n Hn; cbn; [apply Hc; exact Hn|].
  destruct (Nat.eqb _ _).
  - eapply dead_step_keeps; eassumption.
  - apply IH; [|exact Hn]. apply dead_step_keeps. exact Hc.
Qed.

Lemma dead_nodes_exact nodes outputs :
  ordered nodes -> forall n, In n (eliminate_dead_nodes nodes outputs) <-> needed nodes outputs n.
Proof.
  intros Ho n. unfold eliminate_dead_nodes. split.
  - intros H. apply (needed_incl outputs (dead_loop (S (length nodes)) outputs nodes));
      [apply dead_loop_incl|].
    apply fixpoint_needed; [apply ordered_dead_loop; exact Ho|apply dead_loop_fixpoint; lia|exact H].
  - intros H. eapply dead_loop_keeps; [|exact H]. apply needed_In.
Qed.

(** The result is a subsequence. *)
Lemma filter_filter {A} (f g : A -> bool) l : filter g (filter f l) = filter (fun x => f x && g x)%bool l.
Proof.
  induction l as [|a l IH]; cbn; [reflexivity|]. destruct (f a); cbn; [|exact IH].
  destruct (g a); rewrite IH; reflexivity.
Qed.

Lemma dead_loop_sub outputs : forall fuel nodes, exists f, dead_loop fuel outputs nodes = filter f nodes.
Proof.
  induction fuel as [|f IH]; intros nodes; cbn.
  - exists (fun _ => true). induction nodes; cbn; congruence.
  - destruct (Nat.eqb _ _).
    + eexists. reflexivity.
    + destruct (IH (dead_step outputs nodes)) as [g Hg]. rewrite Hg. unfold dead_step.
      rewrite filter_filter. eexists. reflexivity.
Qed.

(* ------------------------------------------------------------------ *)
(** * Renaming passes *)

Lemma attrs_inj (dbg : attr -> string) : forall l l' : list (string * attr),
  (forall a b, In a l -> In b l' -> is_graph_attr (snd a) = false -> is_graph_attr (snd b) = false ->
     dbg (snd a) = dbg (snd b) -> snd a = snd b) ->
  existsb (fun kv => is_graph_attr (snd kv)) l = false ->
  existsb (fun kv => is_graph_attr (snd kv)) l' = false ->
  map (fun kv => (fst kv, dbg (snd kv))) l = map (fun kv => (fst kv, dbg (snd kv))) l' -> l = l'.
Proof.
  induction l as [|[k a] l IH]; intros [|[k' a'] l'] Hd H1 H2 H; cbn in *; try discriminate; [reflexivity|].
  apply orb_false_iff in H1. apply orb_false_iff in H2. inversion H. f_equal.
  - f_equal. apply (Hd (k, a) (k', a')); cbn; tauto.
  - apply IH; try tauto. intros x y Hx Hy. apply Hd; right; assumption.
Qed.

Section Rename.
  Context {V : Type}.
  Variable sem : string -> list (string * attr) -> nat -> list (option V) -> option (list V).
  Variable static : N -> option V.
  Notation env := (string -> option V).

  (** The renaming respects the values of an environment. *)
  Definition respects (r : smap string) (e : env) : Prop :=
    forall x y v, sget r x = Some y -> e x = Some v -> e y = Some v.

  Lemma rename_args_eval r (e : env) : respects r e -> forall l vs,
    args_eval static e l = Some vs -> args_eval static e (map (rename_arg r) l) = Some vs.
  Proof.
    intros Hr. induction l as [|a l IH]; intros vs H; cbn in *; [exact H|].
    destruct (arg_eval static e a) as [v|] eqn:Ea; [|discriminate].
    destruct (args_eval static e l) as [vs'|] eqn:El; [|discriminate].
    rewrite (IH _ eq_refl).
    assert (Hae : arg_eval static e (rename_arg r a) = Some v).
    { unfold rename_arg. destruct (sget r (aname a)) as [y|] eqn:Ey; [|exact Ea].
      unfold arg_eval in *. cbn. destruct (asrc a); try exact Ea;
        (destruct (e (aname a)) as [w|] eqn:Ew; cbn in Ea; [|discriminate];
         rewrite (Hr _ _ _ Ey Ew); exact Ea). }
    rewrite Hae. exact H.
  Qed.

  Lemma rename_run r (e0 : env) : forall s p (e ef : env),
    run sem static e0 p = Some e ->
    (forall p' s' e', p ++ s = p' ++ s' -> run sem static e0 p' = Some e' -> respects r e') ->
    run sem static e s = Some ef ->
    run sem static e (map (rename_node r) s) = Some ef.
  Proof.
    induction s as [|n s IH]; intros p e ef Hp Hr H; [exact H|]. cbn in *.
    destruct (node_eval sem static e n) as [e1|] eqn:E; [|discriminate].
    assert (E' : node_eval sem static e (rename_node r n) = Some e1).
    { unfold node_eval in *. cbn.
      destruct (args_eval static e (ninputs n)) as [vs|] eqn:Ea; [|discriminate].
      rewrite (rename_args_eval r e (Hr p (n :: s) e eq_refl Hp) _ _ Ea). exact E. }
    rewrite E'. apply (IH (p ++ [n])).
    - rewrite run_app, Hp. cbn. rewrite E. reflexivity.
    - intros p' s' e' Heq. apply Hr with (s' := s'). rewrite <- Heq, <- app_assoc. reflexivity.
    - exact H.
  Qed.

  Lemma rename_inputs_run r nodes (e0 ef : env) :
    (forall p s e, nodes = p ++ s -> run sem static e0 p = Some e -> respects r e) ->
    run sem static e0 nodes = Some ef ->
    run sem static e0 (rename_inputs r nodes) = Some ef.
  Proof.
    intros Hr H. unfold rename_inputs. destruct r as [|kv r]; [exact H|].
    apply (rename_run (kv :: r) e0 nodes [] e0 ef eq_refl); [|exact H].
    intros p s e Heq. apply (Hr p s e Heq).
  Qed.

  (** Entries collected by a scan. *)
  Lemma fold_entries (f : rnode -> option (string * string)) : forall nodes (r0 : smap string) x y,
    sget (fold_left (fun r n => match f n with Some (x, y) => sput r x y | None => r end) nodes r0) x = Some y ->
    sget r0 x = Some y \/ exists n, In n nodes /\ f n = Some (x, y).
  Proof.
    induction nodes as [|n l IH]; intros r0 x y H; cbn in H; [left; exact H|].
    apply IH in H. destruct H as [H|[m [Hm He]]].
    - destruct (f n) as [[a b]|] eqn:Ef; [|left; exact H].
      rewrite sget_sput in H. destruct (String.eqb_spec a x) as [->|].
      + right. exists n. split; [left; reflexivity|]. congruence.
      + left; exact H.
    - right. exists m. split; [right; exact Hm|exact He].
  Qed.

  Lemma producer_fold : forall nodes (m0 : smap string) x t,
    sget (fold_left (fun m n => fold_left (fun m o => sput m (aname o) (ntype n)) (noutputs n) m) nodes m0) x = Some t ->
    sget m0 x = Some t \/ exists n, In n nodes /\ In x (out_names n) /\ ntype n = t.
  Proof.
    assert (Hin : forall t outs (m0 : smap string) x t', sget (fold_left (fun m o => sput m (aname o) t) outs m0) x = Some t' ->
              sget m0 x = Some t' \/ (In x (map aname outs) /\ t = t')).
    { intros t. induction outs as [|o outs IH]; intros m0 x t' H; cbn in H; [left; exact H|].
      apply IH in H. destruct H as [H|[H1 H2]].
      - rewrite sget_sput in H. destruct (String.eqb_spec (aname o) x).
        + right. split; [left; assumption|congruence].
        + left; exact H.
      - right. split; [right; exact H1|exact H2]. }
    induction nodes as [|n l IH]; intros m0 x t H; cbn in H; [left; exact H|].
    apply IH in H. destruct H as [H|[m [Hm [Hx Ht]]]].
    - apply Hin in H. destruct H as [H|[H1 H2]]; [left; exact H|].
      right. exists n. split; [left; reflexivity|]. split; assumption.
    - right. exists m. split; [right; exact Hm|]. split; assumption.
  Qed.

  (** Idempotent operators *)
  Lemma idempotent_respects nodes (e0 : env) :
    (forall t at1 at2 v w, In t idempotent_ops ->
       sem t at1 1 [Some v] = Some [w] -> sem t at2 1 [Some w] = Some [w]) ->
    (forall t at1 k v ws, In t idempotent_ops -> sem t at1 k v = Some ws ->
       exists x w, v = [Some x] /\ ws = [w] /\ k = 1) ->
    named_apart nodes -> ssa e0 nodes ->
    forall p s e, nodes = p ++ s -> run sem static e0 p = Some e -> respects (idempotent_renames nodes) e.
  Proof.
    intros Hidem Hunary Hw Hs.
    intros p s e Heq Hrun x y v Hxy Hx.
    unfold idempotent_renames in Hxy. apply fold_entries in Hxy. destruct Hxy as [Hd|[n [Hn He]]]; [discriminate|].
    unfold idempotent_entry in He.
    destruct (mem_str (ntype n) idempotent_ops) eqn:Hop; [|discriminate]. apply mem_str_In in Hop.
    destruct (ninputs n) as [|i [|? ?]] eqn:Ei; try discriminate.
    destruct (noutputs n) as [|o [|? ?]] eqn:Eo; try discriminate.
    destruct (sget (producer_types nodes) (aname i)) as [t|] eqn:Ep; [|discriminate].
    destruct (String.eqb_spec t (ntype n)) as [Ht|]; [|discriminate].
    inversion He; subst x y. clear He.
    apply producer_fold in Ep. destruct Ep as [Ed|[m [Hm [Hxm Htm]]]]; [discriminate|].
    (* both nodes have run *)
    rewrite Heq in Hs.
    assert (Hnp : In n p).
    { eapply bound_output_ran; [exact Hs|exact Hrun|rewrite <- Heq; exact Hn| |exact Hx].
      unfold out_names. rewrite Eo. left; reflexivity. }
    pose proof (run_holds sem static p e0 e (ssa_app_l e0 p s Hs) Hrun) as Hh.
    rewrite Forall_forall in Hh.
    destruct (Hh n Hnp) as [vs [outs [Ha [Hse Hb]]]].
    rewrite Ei, Eo in *. cbn in Hse. unfold out_names in Hb. rewrite Eo in Hb.
    (* the input is read by name *)
    assert (Hnm : aname i <> EmptyString).
    { unfold out_names in Hxm. apply in_map_iff in Hxm. destruct Hxm as [o' [Ho' Hin']].
      rewrite <- Ho'. apply (Hw m Hm). exact Hin'. }
    assert (Hae : exists u, vs = [Some u] /\ e (aname i) = Some u).
    { destruct (Hw n Hn) as [_ Hwi]. specialize (Hwi i). rewrite Ei in Hwi. specialize (Hwi (or_introl eq_refl)).
      cbn in Ha. unfold arg_eval in Ha. destruct (asrc i); try (exfalso; exact (Hnm Hwi)).
      - exfalso. exact (Hwi m Hm Hxm).
      - destruct (e (aname i)) as [u|]; cbn in Ha; [|discriminate]. exists u. split; [congruence|reflexivity].
      - destruct (e (aname i)) as [u|]; cbn in Ha; [|discriminate]. exists u. split; [congruence|reflexivity]. }
    destruct Hae as [u [-> Hu]].
    assert (Hmp : In m p).
    { eapply bound_output_ran; [exact Hs|exact Hrun|rewrite <- Heq; exact Hm|exact Hxm|exact Hu]. }
    destruct (Hh m Hmp) as [vsm [outsm [Ham [Hsem Hbm]]]].
    rewrite Htm, Ht in Hsem.
    destruct (Hunary _ _ _ _ _ Hop Hsem) as [xm [wm [-> [-> Hk]]]].
    rewrite Hk in Hsem.
    (* the single output of m is the input of n *)
    assert (Hwu : wm = u).
    { clear - Hbm Hxm Hu. destruct (out_names m) as [|a [|b l]].
      - destruct Hxm.
      - inversion Hbm; subst. destruct Hxm as [Hxa|[]]. congruence.
      - inversion Hbm as [|? ? ? ? ? Hr]; subst. inversion Hr. }
    subst wm.
    rewrite (Hidem _ _ (nattrs n) _ _ Hop Hsem) in Hse. inversion Hse; subst outs.
    cbn in Hb. inversion Hb; subst. congruence.
  Qed.
  Lemma idempotent_run nodes (e0 ef : env) :
    (forall t at1 at2 v w, In t idempotent_ops ->
       sem t at1 1 [Some v] = Some [w] -> sem t at2 1 [Some w] = Some [w]) ->
    (forall t at1 k v ws, In t idempotent_ops -> sem t at1 k v = Some ws ->
       exists x w, v = [Some x] /\ ws = [w] /\ k = 1) ->
    named_apart nodes -> ssa e0 nodes ->
    run sem static e0 nodes = Some ef ->
    run sem static e0 (eliminate_idempotent_ops nodes) = Some ef.
  Proof.
    intros Hidem Hunary Hw Hs H. apply rename_inputs_run; [|exact H].
    apply idempotent_respects; assumption.
  Qed.

  (** Identity elements *)
  Section IdentityRun.
    Context {F : Type}.
    Variable arg_f64 : arg -> option (list F).
    Variable eq0 eq1 : F -> bool.

    Lemma identity_respects nodes (e0 : env) :
      (forall p s e n x y, nodes = p ++ s -> run sem static e0 p = Some e -> In n p ->
         identity_entry arg_f64 eq0 eq1 n = Some (x, y) ->
         holds sem static e n -> exists v, e x = Some v /\ e y = Some v) ->
      ssa e0 nodes ->
      forall p s e, nodes = p ++ s -> run sem static e0 p = Some e -> respects (identity_renames arg_f64 eq0 eq1 nodes) e.
    Proof.
      intros Hlaw Hs.
      intros p s e Heq Hrun x y v Hxy Hx.
      unfold identity_renames in Hxy. apply fold_entries in Hxy. destruct Hxy as [Hd|[n [Hn He]]]; [discriminate|].
      assert (Hxo : In x (out_names n)).
      { unfold identity_entry in He.
        destruct (ninputs n) as [|a [|b [|? ?]]]; try discriminate.
        destruct (noutputs n) as [|o [|? ?]] eqn:Eo; try discriminate.
        unfold out_names. rewrite Eo.
        match type of He with context [match ?k with _ => _ end] => destruct k; [|discriminate] end.
        inversion He; subst. left; reflexivity. }
      rewrite Heq in Hs.
      assert (Hnp : In n p).
      { eapply bound_output_ran; [exact Hs|exact Hrun|rewrite <- Heq; exact Hn|exact Hxo|exact Hx]. }
      pose proof (run_holds sem static p e0 e (ssa_app_l e0 p s Hs) Hrun) as Hh.
      rewrite Forall_forall in Hh.
      destruct (Hlaw p s e n x y Heq Hrun Hnp He (Hh n Hnp)) as [w [H1 H2]]. congruence.
    Qed.
    Lemma identity_run nodes (e0 ef : env) :
      (forall p s e n x y, nodes = p ++ s -> run sem static e0 p = Some e -> In n p ->
         identity_entry arg_f64 eq0 eq1 n = Some (x, y) ->
         holds sem static e n -> exists v, e x = Some v /\ e y = Some v) ->
      ssa e0 nodes ->
      run sem static e0 nodes = Some ef ->
      run sem static e0 (eliminate_identity_elements arg_f64 eq0 eq1 nodes) = Some ef.
    Proof.
      intros Hlaw Hs H. apply rename_inputs_run; [|exact H]. apply identity_respects; assumption.
    Qed.
  End IdentityRun.

  (** Common subexpressions *)
  Section CseRun.
    Variable dbg : attr -> string.

    Lemma list_eqb_eq {A} (eqb : A -> A -> bool) :
      (forall a b, eqb a b = true -> a = b) -> forall x y, list_eqb eqb x y = true -> x = y.
    Proof.
      intros He. induction x as [|a x IH]; intros [|b y] H; cbn in H; try discriminate; [reflexivity|].
      apply andb_true_iff in H. destruct H as [H1 H2]. f_equal; auto.
    Qed.

    Lemma key_eqb_eq a b : key_eqb a b = true -> a = b.
    Proof.
      destruct a as [x|t i l], b as [y|t' i' l']; cbn; intros H; try discriminate.
      - apply String.eqb_eq in H. congruence.
      - apply andb_true_iff in H. destruct H as [H H3]. apply andb_true_iff in H. destruct H as [H1 H2].
        apply String.eqb_eq in H1.
        apply (list_eqb_eq _ (fun a b => proj1 (String.eqb_eq a b))) in H2.
        apply list_eqb_eq in H3; [congruence|].
        intros [? ?] [? ?] Hab. cbn in Hab. apply andb_true_iff in Hab. destruct Hab as [A B].
        apply String.eqb_eq in A. apply String.eqb_eq in B. congruence.
    Qed.

    Lemma seen_get_In seen k n : seen_get seen k = Some n -> In (k, n) seen.
    Proof.
      induction seen as [|[k' m] r IH]; cbn; [discriminate|].
      destruct (key_eqb k' k) eqn:E.
      - intros H. inversion H; subst. apply key_eqb_eq in E. subst. left; reflexivity.
      - intros H. right. auto.
    Qed.

    Lemma cse_entries_get orig dup : forall r x y,
      sget (cse_entries orig dup r) x = Some y ->
      sget r x = Some y \/
      (length (noutputs orig) = length (noutputs dup) /\
       exists o d, In (o, d) (combine (noutputs orig) (noutputs dup)) /\ aname d = x /\ aname o = y).
    Proof.
      unfold cse_entries. intros r x y H.
      destruct (Nat.eqb_spec (length (noutputs orig)) (length (noutputs dup))) as [E|]; [|left; exact H].
      assert (G : forall l r, sget (fold_left (fun r od => sput r (aname (snd od)) (aname (fst od))) l r) x = Some y ->
        sget r x = Some y \/ exists o d : arg, In (o, d) l /\ aname d = x /\ aname o = y).
      { induction l as [|[o d] l IH]; intros r0 H0; cbn in H0; [left; exact H0|].
        apply IH in H0. destruct H0 as [H0|[o' [d' [Hin Hr]]]].
        - rewrite sget_sput in H0. cbn in H0. destruct (String.eqb_spec (aname d) x).
          + right. exists o, d. split; [left; reflexivity|]. split; [assumption|congruence].
          + left; exact H0.
        - right. exists o', d'. split; [right; exact Hin|exact Hr]. }
      apply G in H. destruct H as [H|H]; [left; exact H|right; split; assumption].
    Qed.

    (** Every entry comes from an earlier node with the same key. *)
    Lemma cse_scan_spec : forall nodes done seen r x y,
      (forall k n, In (k, n) seen -> In n done /\ k = cse_key dbg n) ->
      sget (cse_scan dbg seen r nodes) x = Some y ->
      sget r x = Some y \/
      exists p dup s orig o d,
        nodes = p ++ dup :: s /\ In orig (done ++ p) /\ cse_key dbg orig = cse_key dbg dup /\
        length (noutputs orig) = length (noutputs dup) /\
        In (o, d) (combine (noutputs orig) (noutputs dup)) /\ aname d = x /\ aname o = y.
    Proof.
      induction nodes as [|n rest IH]; intros done seen r x y Hseen H; cbn in H; [left; exact H|].
      destruct (seen_get seen (cse_key dbg n)) as [orig|] eqn:Eg.
      - apply (IH (done ++ [n])) in H.
        + destruct H as [H|(p & dup & s & orig' & o & d & E & Hin & R)].
          * apply cse_entries_get in H. destruct H as [H|[Hl (o & d & Hin & Hd & Ho)]]; [left; exact H|].
            right. apply seen_get_In in Eg. destruct (Hseen _ _ Eg) as [H1 H2].
            exists [], n, rest, orig, o, d. split; [reflexivity|]. split; [apply in_app_iff; left; exact H1|].
            split; [congruence|]. split; [exact Hl|]. split; [exact Hin|]. split; assumption.
          * right. exists (n :: p), dup, s, orig', o, d. split; [cbn; congruence|].
            split; [rewrite <- app_assoc in Hin; exact Hin|exact R].
        + intros k m Hk. destruct (Hseen k m Hk). split; [apply in_app_iff; left; assumption|assumption].
      - apply (IH (done ++ [n])) in H.
        + destruct H as [H|(p & dup & s & orig' & o & d & E & Hin & R)]; [left; exact H|].
          right. exists (n :: p), dup, s, orig', o, d. split; [cbn; congruence|].
          split; [rewrite <- app_assoc in Hin; exact Hin|exact R].
        + intros k m [Hk|Hk].
          * inversion Hk; subst. split; [apply in_app_iff; right; left; reflexivity|reflexivity].
          * destruct (Hseen k m Hk). split; [apply in_app_iff; left; assumption|assumption].
    Qed.

    Lemma same_args (e : env) : forall l l',
      map aname l = map aname l' ->
      existsb (fun i => is_constant i || is_static i)%bool l = false ->
      existsb (fun i => is_constant i || is_static i)%bool l' = false ->
      (forall i, In i (l ++ l') -> match asrc i with
         | VStatic _ => True
         | VOptional => aname i = EmptyString
         | VConstant | VDynamic => aname i <> EmptyString end) ->
      args_eval static e l = args_eval static e l'.
    Proof.
      induction l as [|a l IH]; intros [|b l'] Hm H1 H2 Hw; cbn in Hm; try discriminate; [reflexivity|].
      inversion Hm as [[Hab Hl]]. cbn in H1, H2.
      apply orb_false_iff in H1. apply orb_false_iff in H2.
      assert (IH' : args_eval static e l = args_eval static e l').
      { apply (IH l' Hl); [tauto|tauto|]. intros i Hi. apply Hw. apply in_app_iff in Hi.
        destruct Hi as [Hi|Hi]; [right; apply in_app_iff; left; exact Hi|].
        right. apply in_app_iff. right. right. exact Hi. }
      cbn. rewrite IH'.
      assert (Wa := Hw a (or_introl eq_refl)).
      assert (Wb := Hw b (or_intror (proj2 (in_app_iff l (b :: l') b) (or_intror (or_introl eq_refl))))).
      destruct H1 as [H1 _], H2 as [H2 _].
      assert (E : arg_eval static e a = arg_eval static e b).
      { unfold arg_eval, is_constant, is_static in *. rewrite Hab in *.
        destruct (asrc a), (asrc b); cbn in *; try discriminate; try reflexivity; congruence. }
      rewrite E. reflexivity.
    Qed.

    Lemma Forall2_combine {A B} (R : A -> B -> Prop) : forall (l : list A) (l' : list B) a b,
      Forall2 R l l' -> In (a, b) (combine l l') -> R a b.
    Proof.
      intros l l' a b Hf. induction Hf as [|x y l l' Hxy Hf IH]; cbn; [tauto|].
      intros [H|H]; [inversion H; subst; exact Hxy|auto].
    Qed.

    Lemma combine_vals (e : env) : forall (l l' : list arg) (vs : list V),
      Forall2 (fun x v => e x = Some v) (map aname l) vs ->
      Forall2 (fun x v => e x = Some v) (map aname l') vs ->
      forall o d, In (o, d) (combine l l') -> e (aname o) = e (aname d).
    Proof.
      induction l as [|a l IH]; intros [|b l'] vs H1 H2 o d Hin; cbn in Hin; try tauto.
      cbn in H1, H2. inversion H1; subst. inversion H2; subst.
      destruct Hin as [Hin|Hin]; [inversion Hin; subst; congruence|].
      eapply IH; eassumption.
    Qed.

    Lemma NoDup_map_inj {A B} (f : A -> B) l a b :
      NoDup (map f l) -> In a l -> In b l -> f a = f b -> a = b.
    Proof.
      induction l as [|x l IH]; cbn; [tauto|]. intros Hn Ha Hb Hf. inversion Hn; subst.
      destruct Ha as [->|Ha], Hb as [->|Hb].
      - reflexivity.
      - exfalso. apply H1. rewrite Hf. apply in_map; exact Hb.
      - exfalso. apply H1. rewrite <- Hf. apply in_map; exact Ha.
      - apply IH; assumption.
    Qed.

    Lemma cse_respects nodes (e0 : env) :
      dbg_tells dbg nodes ->
      NoDup (map nname nodes) ->
      named_apart nodes -> ssa e0 nodes ->
      forall p s e, nodes = p ++ s -> run sem static e0 p = Some e -> respects (cse_scan dbg [] [] nodes) e.
    Proof.
      intros Hdbg Hnames Hw Hs.
      intros p s e Heq Hrun x y v Hxy Hx.
      apply (cse_scan_spec nodes [] [] [] x y) in Hxy; [|intros ? ? []].
      destruct Hxy as [Hd|(q & dup & t & orig & o & d & E & Hin & Hk & Hlen & Hod & Hdx & Hoy)]; [discriminate|].
      cbn in Hin.
      assert (Hdup : In dup nodes) by (rewrite E; apply in_app_iff; right; left; reflexivity).
      assert (Horig : In orig nodes) by (rewrite E; apply in_app_iff; left; exact Hin).
      rewrite Heq in Hs.
      assert (Hdp : In dup p).
      { eapply bound_output_ran; [exact Hs|exact Hrun|rewrite <- Heq; exact Hdup| |exact Hx].
        rewrite <- Hdx. apply in_map. apply in_combine_r in Hod. exact Hod. }
      assert (Hop : In orig p).
      { (* orig comes before dup, so it has run too *)
        apply in_split in Hdp. destruct Hdp as [p1 [p2 Hp]].
        assert (Hq : q = p1).
        { assert (Hnd : NoDup nodes) by (eapply NoDup_map_inv; exact Hnames).
          assert (Hcmp : q ++ dup :: t = p1 ++ dup :: (p2 ++ s)).
          { rewrite <- E, Heq, Hp. rewrite <- app_assoc. reflexivity. }
          rewrite E in Hnd. clear - Hcmp Hnd. revert p1 Hcmp.
          induction q as [|a q IH]; intros [|b p1] Hcmp.
          - reflexivity.
          - exfalso. cbn in Hcmp. inversion Hcmp; subst. cbn in Hnd. inversion Hnd; subst.
            match goal with Hni : ~ In _ _ |- _ => apply Hni end.
            apply in_app_iff. right; left; reflexivity.
          - exfalso. cbn in Hcmp. inversion Hcmp; subst. cbn in Hnd. inversion Hnd; subst.
            match goal with Hni : ~ In _ _ |- _ => apply Hni end. apply in_app_iff. right; left; reflexivity.
          - cbn in Hcmp. inversion Hcmp; subst. f_equal. apply IH; [|assumption].
            cbn in Hnd. inversion Hnd; assumption. }
        subst q. rewrite Hp. apply in_app_iff. left; exact Hin. }
      pose proof (run_holds sem static p e0 e (ssa_app_l e0 p s Hs) Hrun) as Hh.
      rewrite Forall_forall in Hh.
      destruct (Hh orig Hop) as [vs1 [outs1 [Ha1 [Hs1 Hb1]]]].
      destruct (Hh dup Hdp) as [vs2 [outs2 [Ha2 [Hs2 Hb2]]]].
      assert (Heqn : e (aname o) = e (aname d)).
      { assert (Hcase : orig = dup \/
          (existsb (fun kv => is_graph_attr (snd kv)) (nattrs orig) = false /\
           existsb (fun kv => is_graph_attr (snd kv)) (nattrs dup) = false /\
           existsb (fun i => is_constant i || is_static i)%bool (ninputs orig) = false /\
           existsb (fun i => is_constant i || is_static i)%bool (ninputs dup) = false)).
        { unfold cse_key in Hk.
          destruct (existsb (fun kv => is_graph_attr (snd kv)) (nattrs orig));
          destruct (existsb (fun kv => is_graph_attr (snd kv)) (nattrs dup));
          destruct (existsb (fun i => is_constant i || is_static i)%bool (ninputs orig));
          destruct (existsb (fun i => is_constant i || is_static i)%bool (ninputs dup));
          try discriminate Hk; try tauto;
          left; apply (NoDup_map_inj nname nodes); congruence || assumption. }
        destruct Hcase as [->|(G1 & G2 & C1 & C2)];
          [eapply combine_vals; [exact Hb2|exact Hb2|exact Hod]|].
        unfold cse_key in Hk. rewrite G1, G2, C1, C2 in Hk.
        injection Hk as K1 K2 K3. apply (attrs_inj dbg _ _ (Hdbg orig dup Horig Hdup) G1 G2) in K3.
        assert (Hvs : vs1 = vs2).
        { rewrite (same_args e (ninputs orig) (ninputs dup) K2 C1 C2) in Ha1; [congruence|].
          intros i Hi. apply in_app_iff in Hi. destruct Hi as [Hi|Hi].
          - pose proof (proj2 (Hw orig Horig) i Hi) as K. destruct (asrc i); auto.
          - pose proof (proj2 (Hw dup Hdup) i Hi) as K. destruct (asrc i); auto. }
        subst vs2. rewrite <- K1, <- K3, <- Hlen, Hs1 in Hs2. inversion Hs2; subst outs2.
        eapply combine_vals; [exact Hb1|exact Hb2|exact Hod]. }
      rewrite <- Hoy, Heqn, Hdx. exact Hx.
    Qed.
    Lemma cse_run nodes (e0 ef : env) :
      dbg_tells dbg nodes ->
      NoDup (map nname nodes) ->
      named_apart nodes -> ssa e0 nodes ->
      run sem static e0 nodes = Some ef ->
      run sem static e0 (eliminate_redundant_nodes dbg nodes) = Some ef.
    Proof.
      intros Hdbg Hnames Hw Hs H. apply rename_inputs_run; [|exact H]. apply cse_respects; assumption.
    Qed.
  End CseRun.
End Rename.

Lemma rename_inputs_length r nodes : length (rename_inputs r nodes) = length nodes.
Proof. unfold rename_inputs. destruct r; [reflexivity|apply map_length]. Qed.

(* ------------------------------------------------------------------ *)
(** * Identity elements on tensors *)
From Verif Require Import Tensor_Spec Tensor_Proofs.

Section IdentityTensor.
  Context {A F : Type}.
  Variable sem : string -> list (string * attr) -> nat -> list (option (tensor A)) -> option (list (tensor A)).
  Variable static : N -> option (tensor A).

  Lemma run_wf : forall nodes (e e' : string -> option (tensor A)),
    (forall t at_ k vs outs, sem t at_ k vs = Some outs -> Forall twf outs) ->
    (forall x v, e x = Some v -> twf v) ->
    run sem static e nodes = Some e' -> forall x v, e' x = Some v -> twf v.
  Proof.
    induction nodes as [|n r IH]; intros e e' Hsem He H x v Hx; cbn in H.
    - inversion H; subst. eapply He; exact Hx.
    - destruct (node_eval sem static e n) as [e1|] eqn:E; [|discriminate].
      eapply IH; [exact Hsem| |exact H|exact Hx].
      unfold node_eval in E. destruct (args_eval static e (ninputs n)) as [vs|]; [|discriminate].
      destruct (sem _ _ _ vs) as [outs|] eqn:Es; [|discriminate].
      apply Hsem in Es. revert E Es He. clear. revert e outs.
      induction (map aname (noutputs n)) as [|y ys IHy]; intros e [|o outs] E Es He; cbn in E; try discriminate.
      + inversion E; subst. exact He.
      + inversion Es; subst. eapply IHy; [exact E|assumption|].
        intros x v. unfold bind1. destruct (String.eqb y x); intros Hv; [inversion Hv; subst; assumption|].
        eapply He; exact Hv.
  Qed.

  Variable toF : A -> F.
  Variable eq0 eq1 : F -> bool.
  Variable add sub mul div pow : A -> A -> A.
  Variable arg_f64 : arg -> option (list F).
  Variable nodes : list rnode.
  Variable e0 ef : string -> option (tensor A).

  Lemma identity_tensor_run :
    (forall a v, eq0 (toF a) = true -> add v a = v /\ add a v = v /\ sub v a = v) ->
    (forall a v, eq1 (toF a) = true -> mul v a = v /\ mul a v = v /\ div v a = v /\ pow v a = v) ->
    (forall t op, In (t, op) [("Add", add); ("Sub", sub); ("Mul", mul); ("Div", div); ("Pow", pow)]%string ->
       forall at_ x y, sem t at_ 1 [Some x; Some y] = option_map (fun r => [r]) (elementwise op x y)) ->
    (forall t at_ k vs outs, sem t at_ k vs = Some outs -> Forall twf outs) ->
    (forall x v, e0 x = Some v -> twf v) ->
    (forall i v, static i = Some v -> twf v) ->
    (forall a fs, arg_f64 a = Some fs -> is_static a = true \/ is_constant a = true) ->
    (forall p s e n a fs v, nodes = p ++ s -> run sem static e0 p = Some e -> In n p -> In a (ninputs n) ->
       arg_f64 a = Some fs -> arg_eval static e a = Some (Some v) -> fs = map toF (tdata v)) ->
    (forall n x y, In n nodes -> identity_entry arg_f64 eq0 eq1 n = Some (x, y) -> y <> EmptyString) ->
    (forall p s e n x y vx vy, nodes = p ++ s -> run sem static e0 p = Some e -> In n p ->
       identity_entry arg_f64 eq0 eq1 n = Some (x, y) -> e x = Some vx -> e y = Some vy ->
       tshape vx = tshape vy) ->
    well_named nodes -> ssa e0 nodes ->
    run sem static e0 nodes = Some ef ->
    run sem static e0 (eliminate_identity_elements arg_f64 eq0 eq1 nodes) = Some ef.
  Proof.
    intros H0 H1 Hop Hswf He0 Hst Hsrc Hval Hne Hshape Hw Hs Hrun.
    apply identity_run; [|exact Hs|exact Hrun].
    intros p s e n x y Heq Hp Hn Hent Hh.
    pose proof (run_wf p e0 e Hswf He0 Hp) as Hwf.
    assert (HnN : In n nodes) by (rewrite Heq; apply in_app_iff; left; exact Hn).
    pose proof (Hne n x y HnN Hent) as Hy.
    pose proof (fun vx vy => Hshape p s e n x y vx vy Heq Hp Hn Hent) as Hsh.
    destruct Hh as [vs [outs [Ha [Hse Hb]]]].
    destruct (Hw n HnN) as [_ Hwi].
    pose proof (fun a fs v => Hval p s e n a fs v Heq Hp Hn) as Hv.
    unfold identity_entry in Hent. unfold out_names in Hb.
    destruct (ninputs n) as [|a [|b [|? ?]]] eqn:Ei; try discriminate.
    destruct (noutputs n) as [|o [|? ?]] eqn:Eo; try discriminate.
    cbn [length map] in Hse, Hb.
    assert (Hnamed : forall k, In k [a; b] -> aname k <> EmptyString -> arg_eval static e k = option_map Some (e (aname k))).
    { intros k Hk Hkn. specialize (Hwi k Hk). unfold arg_eval. destruct (asrc k); try contradiction; reflexivity. }
    assert (Hawf : forall k v, arg_eval static e k = Some (Some v) -> twf v).
    { intros k v. unfold arg_eval. destruct (asrc k).
      - destruct (static id) eqn:E; cbn; intros H; inversion H; subst. eapply Hst; exact E.
      - destruct (e (aname k)) eqn:E; cbn; intros H; inversion H; subst. eapply Hwf; exact E.
      - destruct (e (aname k)) eqn:E; cbn; intros H; inversion H; subst. eapply Hwf; exact E.
      - discriminate. }
    assert (Hcst : forall k eqt, In k [a; b] -> is_constant_value arg_f64 eqt k = true ->
              exists v, arg_eval static e k = Some (Some v) /\ forall z, In z (tdata v) -> eqt (toF z) = true).
    { intros k eqt Hk Hc. unfold is_constant_value in Hc.
      destruct (arg_f64 k) as [fs|] eqn:Ef; [|discriminate].
      assert (Hex : exists v, arg_eval static e k = Some (Some v)).
      { cbn in Ha. assert (Hka : exists w, arg_eval static e k = Some w).
        { destruct (arg_eval static e a) as [wa|] eqn:Ea; [|discriminate].
          destruct (arg_eval static e b) as [wb|] eqn:Eb; [|discriminate].
          destruct Hk as [<-|[<-|[]]]; eexists; eassumption. }
        destruct Hka as [w Hw']. destruct (Hsrc _ _ Ef) as [Hs'|Hs']; unfold is_static, is_constant in Hs';
          unfold arg_eval in *; destruct (asrc k); try discriminate.
        - destruct (static id); [|discriminate]. eexists; reflexivity.
        - destruct (e (aname k)); [|discriminate]. eexists; reflexivity. }
      destruct Hex as [v Hev]. exists v. split; [exact Hev|].
      pose proof (Hv k fs v Hk Ef Hev) as ->.
      intros z Hz. destruct (map toF (tdata v)) as [|f fs'] eqn:Em; [discriminate|].
      rewrite forallb_forall in Hc. apply Hc. rewrite <- Em. apply in_map. exact Hz. }
    (* a general step: the kept operand is on the left, or on the right *)
    assert (Hkeep : exists k c swap op, In (ntype n, op) [("Add", add); ("Sub", sub); ("Mul", mul); ("Div", div); ("Pow", pow)]%string
              /\ In k [a; b] /\ (x, y) = (aname o, aname k) /\
              ((swap = false /\ k = a /\ c = b) \/ (swap = true /\ k = b /\ c = a)) /\
              exists eqt, is_constant_value arg_f64 eqt c = true /\
                forall z v, eqt (toF z) = true -> (if swap then op z v else op v z) = v).
    { destruct (String.eqb_spec (ntype n) "Add") as [Et|Et]; cbn [orb andb] in Hent.
      - rewrite Et in *. destruct (is_constant_value arg_f64 eq0 b) eqn:Cb.
        + exists a, b, false, add. split; [left; reflexivity|]. split; [left; reflexivity|].
          split; [congruence|]. split; [left; tauto|]. exists eq0. split; [exact Cb|]. intros z v Hz. apply (H0 z v Hz).
        + destruct (is_constant_value arg_f64 eq0 a) eqn:Ca; [|discriminate].
          exists b, a, true, add. split; [left; reflexivity|]. split; [right; left; reflexivity|].
          split; [congruence|]. split; [right; tauto|]. exists eq0. split; [exact Ca|]. intros z v Hz. apply (H0 z v Hz).
      - destruct (String.eqb_spec (ntype n) "Sub") as [Es|Es].
        + rewrite Es in *. destruct (is_constant_value arg_f64 eq0 b) eqn:Cb; [|discriminate].
          exists a, b, false, sub. split; [right; left; reflexivity|]. split; [left; reflexivity|].
          split; [congruence|]. split; [left; tauto|]. exists eq0. split; [exact Cb|]. intros z v Hz. apply (H0 z v Hz).
        + destruct (String.eqb_spec (ntype n) "Mul") as [Em|Em].
          * rewrite Em in *. destruct (is_constant_value arg_f64 eq1 b) eqn:Cb.
            -- exists a, b, false, mul. split; [right; right; left; reflexivity|]. split; [left; reflexivity|].
               split; [congruence|]. split; [left; tauto|]. exists eq1. split; [exact Cb|]. intros z v Hz. apply (H1 z v Hz).
            -- destruct (is_constant_value arg_f64 eq1 a) eqn:Ca; [|discriminate].
               exists b, a, true, mul. split; [right; right; left; reflexivity|]. split; [right; left; reflexivity|].
               split; [congruence|]. split; [right; tauto|]. exists eq1. split; [exact Ca|]. intros z v Hz. apply (H1 z v Hz).
          * destruct (String.eqb_spec (ntype n) "Div") as [Ed|Ed].
            -- rewrite Ed in *. destruct (is_constant_value arg_f64 eq1 b) eqn:Cb; [|discriminate].
               exists a, b, false, div. split; [right; right; right; left; reflexivity|]. split; [left; reflexivity|].
               split; [congruence|]. split; [left; tauto|]. exists eq1. split; [exact Cb|]. intros z v Hz. apply (H1 z v Hz).
            -- destruct (String.eqb_spec (ntype n) "Pow") as [Ep|Ep]; [|discriminate].
               rewrite Ep in *. destruct (is_constant_value arg_f64 eq1 b) eqn:Cb; [|discriminate].
               exists a, b, false, pow. split; [right; right; right; right; left; reflexivity|]. split; [left; reflexivity|].
               split; [congruence|]. split; [left; tauto|]. exists eq1. split; [exact Cb|]. intros z v Hz. apply (H1 z v Hz). }
    destruct Hkeep as (k & c & swap & op & Hinop & Hk & Hxy & Hsw & eqt & Hc & Hneut).
    injection Hxy as Hx' Hy'.
    assert (Hcin : In c [a; b]) by (destruct Hsw as [(_ & _ & ->)|(_ & _ & ->)]; cbn; tauto).
    destruct (Hcst c eqt Hcin Hc) as [cv [Hcv Hall]].
    rewrite Hy' in Hy.
    pose proof (Hnamed k Hk Hy) as Hke.
    assert (Hkv : exists kv, e (aname k) = Some kv).
    { cbn in Ha. destruct (arg_eval static e a) eqn:Ea; [|discriminate].
      destruct (arg_eval static e b) eqn:Eb; [|discriminate].
      destruct Hk as [<-|[<-|[]]].
      - rewrite Ea in Hke. destruct (e (aname a)); [eexists; reflexivity|discriminate].
      - rewrite Eb in Hke. destruct (e (aname b)); [eexists; reflexivity|discriminate]. }
    destruct Hkv as [kv Hkv]. rewrite Hkv in Hke. cbn in Hke.
    exists kv. rewrite Hx', Hy'. split; [|exact Hkv].
    assert (Hres : exists r, outs = [r] /\ e (aname o) = Some r).
    { inversion Hb as [|? r ? ? Hr Hb']; subst. inversion Hb'; subst. exists r. split; [reflexivity|exact Hr]. }
    destruct Hres as [r [-> Hr]]. rewrite Hr. f_equal.
    assert (Hshr : tshape r = tshape kv) by (apply Hsh; congruence).
    pose proof (Hawf k kv Hke) as Wk. pose proof (Hawf c cv Hcv) as Wc.
    destruct Hsw as [(-> & -> & ->)|(-> & -> & ->)].
    - cbn in Ha. rewrite Hke, Hcv in Ha. inversion Ha; subst vs.
      rewrite (Hop _ _ Hinop) in Hse. destruct (elementwise op kv cv) as [r'|] eqn:Ew; [|discriminate].
      cbn in Hse. inversion Hse; subst r'.
      eapply elementwise_neutral_r; [exact Wk|exact Wc|exact Ew|exact Hshr|].
      intros z v Hz. apply (Hneut z v). apply Hall; exact Hz.
    - cbn in Ha. rewrite Hke, Hcv in Ha. inversion Ha; subst vs.
      rewrite (Hop _ _ Hinop) in Hse. destruct (elementwise op cv kv) as [r'|] eqn:Ew; [|discriminate].
      cbn in Hse. inversion Hse; subst r'.
      eapply elementwise_neutral_l; [exact Wk|exact Wc|exact Ew|exact Hshr|].
      intros z v Hz. apply (Hneut z v). apply Hall; exact Hz.
  Qed.
End IdentityTensor.

(* ------------------------------------------------------------------ *)
(** * Statements used by the property file *)

Lemma preserves_same {V} (r1 r2 : option (string -> option V)) outs :
  (forall e, r1 = Some e -> r2 = Some e) -> preserves r1 r2 outs.
Proof. intros H e He. exists e. split; [apply H; exact He|reflexivity]. Qed.

Lemma dead_preserves {V} sem static (e0 : string -> option V) nodes outputs :
  preserves (run sem static e0 nodes)
            (run sem static e0 (eliminate_dead_nodes nodes outputs)) (map aname outputs).
Proof. intros e He. apply dead_loop_run. exact He. Qed.

Lemma filter_all {A} (f : A -> bool) l : (forall x, In x l -> f x = true) -> filter f l = l.
Proof.
  induction l as [|a l IH]; intros H; cbn; [reflexivity|].
  rewrite (H a (or_introl eq_refl)), IH by (intros; apply H; right; assumption). reflexivity.
Qed.

Lemma dead_idempotent nodes outputs :
  eliminate_dead_nodes (eliminate_dead_nodes nodes outputs) outputs = eliminate_dead_nodes nodes outputs.
Proof.
  assert (Hf : dead_step outputs (eliminate_dead_nodes nodes outputs) = eliminate_dead_nodes nodes outputs)
    by (apply dead_loop_fixpoint; lia).
  set (R := eliminate_dead_nodes nodes outputs) in *. unfold eliminate_dead_nodes. cbn [dead_loop].
  rewrite Hf, Nat.eqb_refl. reflexivity.
Qed.

Lemma dead_order nodes outputs : exists f, eliminate_dead_nodes nodes outputs = filter f nodes.
Proof. apply dead_loop_sub. Qed.

Lemma well_named_apart nodes : well_named nodes -> named_apart nodes.
Proof.
  intros H n Hn. split; [apply H; exact Hn|]. intros i Hi. pose proof (proj2 (H n Hn) i Hi) as K.
  destruct (asrc i); try exact K. intros m Hm Hin. apply in_map_iff in Hin. destruct Hin as (o & Ho & Hin).
  apply (proj1 (H m Hm) o Hin). congruence.
Qed.

Lemma idempotent_preserves {V} sem static (e0 : string -> option V) nodes outs :
  (forall t at1 at2 v w, In t idempotent_ops ->
     sem t at1 1 [Some v] = Some [w] -> sem t at2 1 [Some w] = Some [w]) ->
  (forall t at1 k v ws, In t idempotent_ops -> sem t at1 k v = Some ws ->
     exists x w, v = [Some x] /\ ws = [w] /\ k = 1) ->
  named_apart nodes -> ssa e0 nodes ->
  preserves (run sem static e0 nodes) (run sem static e0 (eliminate_idempotent_ops nodes)) outs.
Proof. intros H1 H2 H3 H4. apply preserves_same. intros e He. apply idempotent_run; assumption. Qed.

Lemma cse_preserves {V} dbg sem static (e0 : string -> option V) nodes outs :
  dbg_tells dbg nodes ->
  NoDup (map nname nodes) -> named_apart nodes -> ssa e0 nodes ->
  preserves (run sem static e0 nodes) (run sem static e0 (eliminate_redundant_nodes dbg nodes)) outs.
Proof. intros H1 H2 H3 H4. apply preserves_same. intros e He. apply cse_run; assumption. Qed.

(** The pass leaves everything but input names alone. *)
Lemma cse_only_merges dbg nodes :
  dbg_tells dbg nodes ->
  NoDup (map nname nodes) ->
  forall k n' i a a',
    nth_error (eliminate_redundant_nodes dbg nodes) k = Some n' ->
    exists n, nth_error nodes k = Some n /\ ntype n' = ntype n /\ nattrs n' = nattrs n /\ noutputs n' = noutputs n /\
      (nth_error (ninputs n') i = Some a' -> nth_error (ninputs n) i = Some a -> aname a' <> aname a ->
       exists orig dup j o d, In orig nodes /\ In dup nodes /\ orig <> dup /\
         ntype orig = ntype dup /\ nattrs orig = nattrs dup /\ map aname (ninputs orig) = map aname (ninputs dup) /\
         (forall b, In b (ninputs orig ++ ninputs dup) -> asrc b = VDynamic \/ asrc b = VOptional) /\
         nth_error (noutputs orig) j = Some o /\ nth_error (noutputs dup) j = Some d /\
         aname a = aname d /\ aname a' = aname o).
Proof.
  intros Hdbg Hnames k n' i a a' Hk.
  assert (Hk' : nth_error (map (rename_node (cse_scan dbg [] [] nodes)) nodes) k = Some n').
  { unfold eliminate_redundant_nodes, rename_inputs in Hk. destruct (cse_scan dbg [] [] nodes) eqn:E; [|exact Hk].
    rewrite nth_error_map, Hk. cbn. f_equal. destruct n' as [ty nm ins os ats]; unfold rename_node; cbn.
    f_equal. rewrite <- (map_id ins) at 2. apply map_ext. reflexivity. }
  rewrite nth_error_map in Hk'. destruct (nth_error nodes k) as [n|] eqn:En; [|discriminate].
  cbn in Hk'. inversion Hk'; subst n'. clear Hk'. exists n. split; [reflexivity|].
  split; [reflexivity|]. split; [reflexivity|]. split; [reflexivity|].
  cbn. intros Ha' Ha Hne. rewrite nth_error_map, Ha in Ha'. cbn in Ha'. inversion Ha'; subst a'. clear Ha'.
  unfold rename_arg in *. destruct (sget (cse_scan dbg [] [] nodes) (aname a)) as [y|] eqn:Ey; [|congruence].
  cbn in Hne |- *.
  apply (cse_scan_spec dbg nodes [] [] [] _ _) in Ey; [|intros ? ? []].
  destruct Ey as [Hd|(q & dup & t & orig & o & d & E & Hin & Hkey & Hlen & Hod & Hdx & Hoy)]; [discriminate|].
  cbn in Hin.
  assert (Hdup : In dup nodes) by (rewrite E; apply in_app_iff; right; left; reflexivity).
  assert (Horig : In orig nodes) by (rewrite E; apply in_app_iff; left; exact Hin).
  assert (Hnd : NoDup nodes) by (eapply NoDup_map_inv; exact Hnames).
  assert (Hneq : orig <> dup).
  { intros ->. rewrite E in Hnd. apply NoDup_remove_2 in Hnd. apply Hnd. apply in_app_iff. left; exact Hin. }
  assert (Hj : exists j, nth_error (noutputs orig) j = Some o /\ nth_error (noutputs dup) j = Some d).
  { clear - Hod. revert Hod. generalize (noutputs orig), (noutputs dup). induction l as [|x l IH]; intros [|y l'] H; cbn in H; try tauto.
    destruct H as [H|H]; [inversion H; subst; exists 0; split; reflexivity|].
    destruct (IH _ H) as [j Hj]. exists (S j). exact Hj. }
  destruct Hj as [j [Hj1 Hj2]].
  unfold cse_key in Hkey.
  destruct (existsb (fun kv => is_graph_attr (snd kv)) (nattrs orig)) eqn:G1;
  destruct (existsb (fun kv => is_graph_attr (snd kv)) (nattrs dup)) eqn:G2;
  destruct (existsb (fun i => is_constant i || is_static i)%bool (ninputs orig)) eqn:C1;
  destruct (existsb (fun i => is_constant i || is_static i)%bool (ninputs dup)) eqn:C2;
  try discriminate Hkey;
  try (exfalso; apply Hneq; apply (NoDup_map_inj nname nodes); congruence || assumption).
  injection Hkey as K1 K2 K3. apply (attrs_inj dbg _ _ (Hdbg orig dup Horig Hdup) G1 G2) in K3.
  exists orig, dup, j, o, d. repeat (split; [assumption || congruence|]).
  split; [|split; [exact Hj1|split; [exact Hj2|split; congruence]]].
  intros b Hb.
  assert (Hbf : (is_constant b || is_static b)%bool = false).
  { apply in_app_iff in Hb. destruct Hb as [Hb|Hb].
    - destruct (is_constant b || is_static b)%bool eqn:Eb; [|reflexivity].
      assert (existsb (fun i => is_constant i || is_static i)%bool (ninputs orig) = true)
        by (apply existsb_exists; exists b; split; assumption). congruence.
    - destruct (is_constant b || is_static b)%bool eqn:Eb; [|reflexivity].
      assert (existsb (fun i => is_constant i || is_static i)%bool (ninputs dup) = true)
        by (apply existsb_exists; exists b; split; assumption). congruence. }
  unfold is_constant, is_static in Hbf. destruct (asrc b); cbn in Hbf; try discriminate; auto.
Qed.
