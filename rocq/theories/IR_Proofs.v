(** General facts about running graphs. *)
From Verif Require Import IR_Model IR_Spec.

Lemma sget_sput {A} (m : smap A) k v k' :
  sget (sput m k v) k' = if String.eqb k k' then Some v else sget m k'.
Proof. reflexivity. Qed.

Lemma Forall2_weaken {A B} (R S : A -> B -> Prop) l l' :
  (forall a b, R a b -> S a b) -> Forall2 R l l' -> Forall2 S l l'.
Proof. intros H. induction 1; constructor; auto. Qed.

Section RunFacts.
  Context {V : Type}.
  Variable sem : string -> list (string * attr) -> nat -> list (option V) -> option (list V).
  Variable static : N -> option V.
  Notation env := (string -> option V).
  Notation arg_eval := (arg_eval static).
  Notation args_eval := (args_eval static).
  Notation node_eval := (node_eval sem static).
  Notation run := (run sem static).

  Definition outs_of (nodes : list rnode) : list string :=
    flat_map (fun n => map aname (noutputs n)) nodes.

  Lemma bind_other : forall xs vs (e e' : env) y,
    bind e xs vs = Some e' -> ~ In y xs -> e' y = e y.
  Proof.
    induction xs as [|x xs IH]; intros [|v vs] e e' y H Hy; cbn in H; try discriminate H.
    - inversion H; reflexivity.
    - rewrite (IH _ _ _ y H) by (cbn in Hy; tauto).
      unfold bind1. destruct (String.eqb_spec x y) as [->|]; [|reflexivity].
      cbn in Hy. tauto.
  Qed.

  Lemma bind_vals : forall xs vs (e e' : env),
    bind e xs vs = Some e' -> NoDup xs -> Forall2 (fun x v => e' x = Some v) xs vs.
  Proof.
    induction xs as [|x xs IH]; intros [|v vs] e e' H Hn; cbn in H; try discriminate H.
    - constructor.
    - inversion Hn; subst. constructor.
      + rewrite (bind_other _ _ _ _ x H) by assumption.
        unfold bind1. rewrite String.eqb_refl. reflexivity.
      + eapply IH; eassumption.
  Qed.

  Lemma bind_in : forall xs vs (e e' : env) y v,
    bind e xs vs = Some e' -> e' y = Some v -> e y = Some v \/ In y xs.
  Proof.
    intros xs vs e e' y v H Hv. destruct (in_dec string_dec y xs) as [|Hy]; [right; assumption|].
    left. rewrite <- (bind_other _ _ _ _ _ H Hy). exact Hv.
  Qed.

  Lemma bind_ext : forall xs vs (e1 e2 e1' : env),
    bind e1 xs vs = Some e1' -> exists e2', bind e2 xs vs = Some e2' /\
      forall y, (In y xs \/ e1 y = e2 y) -> e1' y = e2' y.
  Proof.
    induction xs as [|x xs IH]; intros [|v vs] e1 e2 e1' H; cbn in H; try discriminate H.
    - exists e2. split; [reflexivity|]. inversion H; subst. intros y [[]|Hy]; exact Hy.
    - destruct (IH vs _ (bind1 e2 x v) _ H) as [e2' [H2 Hy]].
      exists e2'. split; [exact H2|]. intros y Hin. apply Hy.
      destruct (in_dec string_dec y xs) as [|Hnot]; [left; assumption|]. right.
      unfold bind1. destruct (String.eqb_spec x y) as [|Hne]; [reflexivity|].
      destruct Hin as [[|]|]; congruence || tauto.
  Qed.

  Lemma args_eval_mono : forall l (e e' : env) vs,
    (forall x v, e x = Some v -> e' x = Some v) ->
    args_eval e l = Some vs -> args_eval e' l = Some vs.
  Proof.
    induction l as [|a l IH]; intros e e' vs Hm H; cbn in *; [exact H|].
    destruct (arg_eval e a) as [v|] eqn:Ea; [|discriminate].
    destruct (args_eval e l) as [vs'|] eqn:El; [|discriminate].
    rewrite (IH _ _ _ Hm El).
    assert (Hae : arg_eval e' a = Some v).
    { unfold IR_Spec.arg_eval in *. destruct (asrc a); try exact Ea.
      - destruct (e (aname a)) as [w|] eqn:Ew; cbn in Ea; [|discriminate].
        rewrite (Hm _ _ Ew). exact Ea.
      - destruct (e (aname a)) as [w|] eqn:Ew; cbn in Ea; [|discriminate].
        rewrite (Hm _ _ Ew). exact Ea. }
    rewrite Hae. exact H.
  Qed.

  Lemma args_eval_agree : forall l (e e' : env),
    (forall a, In a l -> e (aname a) = e' (aname a)) ->
    args_eval e l = args_eval e' l.
  Proof.
    induction l as [|a l IH]; intros e e' Hm; cbn; [reflexivity|].
    rewrite (IH e e') by (intros; apply Hm; right; assumption).
    assert (Ha : arg_eval e a = arg_eval e' a).
    { unfold IR_Spec.arg_eval. rewrite (Hm a) by (left; reflexivity). reflexivity. }
    rewrite Ha. reflexivity.
  Qed.

  Lemma run_app : forall p s (e : env),
    run e (p ++ s) = match run e p with Some e' => run e' s | None => None end.
  Proof.
    induction p as [|n p IH]; intros s e; cbn; [reflexivity|].
    destruct (node_eval e n); [apply IH|reflexivity].
  Qed.

  Lemma node_eval_other (e e' : env) n y :
    node_eval e n = Some e' -> ~ In y (out_names n) -> e' y = e y.
  Proof.
    unfold IR_Spec.node_eval. intros H Hy.
    destruct (args_eval e (ninputs n)); [|discriminate].
    destruct (sem _ _ _ _); [|discriminate]. eapply bind_other; eassumption.
  Qed.

  Lemma run_other : forall nodes (e e' : env) y,
    run e nodes = Some e' -> ~ In y (outs_of nodes) -> e' y = e y.
  Proof.
    induction nodes as [|n r IH]; intros e e' y H Hy; cbn in H.
    - inversion H; reflexivity.
    - destruct (node_eval e n) as [e1|] eqn:E; [|discriminate].
      unfold outs_of in Hy. cbn in Hy. rewrite in_app_iff in Hy.
      rewrite (IH _ _ y H) by (unfold outs_of; tauto).
      eapply node_eval_other; [eassumption|]. unfold out_names. tauto.
  Qed.

  Lemma run_bound : forall nodes (e e' : env) y v,
    run e nodes = Some e' -> e' y = Some v -> e y = Some v \/ In y (outs_of nodes).
  Proof.
    intros nodes e e' y v H Hv. destruct (in_dec string_dec y (outs_of nodes)); [right; assumption|].
    left. rewrite <- (run_other _ _ _ _ H n). exact Hv.
  Qed.

  (** The equation of a node holds in an environment. *)
  Definition holds (e : env) (n : rnode) : Prop :=
    exists vs outs, args_eval e (ninputs n) = Some vs /\
      sem (ntype n) (nattrs n) (length (noutputs n)) vs = Some outs /\
      Forall2 (fun x v => e x = Some v) (out_names n) outs.

  Lemma holds_mono (e e' : env) n :
    (forall x v, e x = Some v -> e' x = Some v) -> holds e n -> holds e' n.
  Proof.
    intros Hm [vs [outs [H1 [H2 H3]]]]. exists vs, outs.
    split; [eapply args_eval_mono; eassumption|]. split; [exact H2|].
    eapply Forall2_weaken; [|exact H3]. cbn. intros; auto.
  Qed.

  Lemma NoDup_app_l {A} (a b : list A) : NoDup (a ++ b) -> NoDup a.
  Proof. intros H. induction a as [|x a IH]; [constructor|]. inversion H; subst.
         constructor; [rewrite in_app_iff in *; tauto|apply IH; assumption]. Qed.
  Lemma NoDup_app_r {A} (a b : list A) : NoDup (a ++ b) -> NoDup b.
  Proof. intros H. induction a as [|x a IH]; [exact H|]. inversion H; subst. apply IH; assumption. Qed.
  Lemma NoDup_app_disj {A} (a b : list A) x : NoDup (a ++ b) -> In x a -> In x b -> False.
  Proof.
    intros H Ha Hb. induction a as [|y a IH]; [destruct Ha|]. inversion H; subst.
    destruct Ha as [->|Ha]; [|apply IH; assumption].
    match goal with H : ~ In _ _ |- _ => apply H end. apply in_app_iff. right; assumption.
  Qed.

  Lemma node_eval_mono (e e' : env) n x v :
    (forall y, In y (out_names n) -> e y = None) ->
    node_eval e n = Some e' -> e x = Some v -> e' x = Some v.
  Proof.
    intros Hf H Hx. destruct (in_dec string_dec x (out_names n)) as [Hin|Hin].
    - rewrite (Hf x Hin) in Hx. discriminate.
    - rewrite (node_eval_other _ _ _ _ H Hin). exact Hx.
  Qed.

  Lemma run_mono : forall nodes (e e' : env) x v,
    (forall y, In y (outs_of nodes) -> e y = None) ->
    run e nodes = Some e' -> e x = Some v -> e' x = Some v.
  Proof.
    intros nodes e e' x v Hf H Hx.
    destruct (in_dec string_dec x (outs_of nodes)) as [Hin|Hin].
    - rewrite (Hf x Hin) in Hx. discriminate.
    - rewrite (run_other _ _ _ _ H Hin). exact Hx.
  Qed.

  Lemma node_eval_holds (e e' : env) n :
    NoDup (out_names n) -> (forall y, In y (out_names n) -> e y = None) ->
    node_eval e n = Some e' -> holds e' n.
  Proof.
    intros Hn Hf H. pose proof H as H0. unfold IR_Spec.node_eval in H.
    destruct (args_eval e (ninputs n)) as [vs|] eqn:Ea; [|discriminate].
    destruct (sem (ntype n) (nattrs n) (length (noutputs n)) vs) as [outs|] eqn:Es; [|discriminate].
    exists vs, outs. split; [|split; [exact Es|eapply bind_vals; eassumption]].
    eapply args_eval_mono; [|exact Ea]. intros x v Hx. eapply node_eval_mono; eassumption.
  Qed.

  Lemma ssa_cons (e e' : env) n r :
    ssa e (n :: r) -> node_eval e n = Some e' ->
    NoDup (out_names n) /\ (forall y, In y (out_names n) -> e y = None) /\ ssa e' r.
  Proof.
    unfold ssa. cbn. intros [Hn Hf] He. split; [|split].
    - exact (NoDup_app_l _ _ Hn).
    - intros y Hy. apply Hf. apply in_app_iff. left; exact Hy.
    - split; [exact (NoDup_app_r _ _ Hn)|].
      intros x Hx. rewrite (node_eval_other _ _ _ _ He).
      + apply Hf. apply in_app_iff. right; exact Hx.
      + intros Hy. exact (NoDup_app_disj _ _ x Hn Hy Hx).
  Qed.

  Lemma run_holds : forall nodes (e e' : env),
    ssa e nodes -> run e nodes = Some e' -> Forall (holds e') nodes.
  Proof.
    induction nodes as [|n r IH]; intros e e' Hs H; cbn in H; [constructor|].
    destruct (node_eval e n) as [e1|] eqn:E; [|discriminate].
    destruct (ssa_cons _ _ _ _ Hs E) as [Hn [Hf Hs']].
    constructor; [|eapply IH; eassumption].
    eapply holds_mono; [|eapply node_eval_holds; eassumption].
    intros x v Hx. eapply run_mono; [|eassumption|eassumption]. exact (proj2 Hs').
  Qed.

  Lemma ssa_app_l (e : env) p s : ssa e (p ++ s) -> ssa e p.
  Proof.
    unfold ssa. rewrite flat_map_app. intros [Hn Hf]. split; [exact (NoDup_app_l _ _ Hn)|].
    intros x Hx. apply Hf. apply in_app_iff. left; exact Hx.
  Qed.

  (** In a single-assignment list, a bound output name belongs to a node that
      has already run. *)
  Lemma bound_output_ran (e0 e : env) p s n x v :
    ssa e0 (p ++ s) -> run e0 p = Some e -> In n (p ++ s) -> In x (out_names n) ->
    e x = Some v -> In n p.
  Proof.
    intros Hs Hr Hn Hx Hv.
    destruct (run_bound _ _ _ _ _ Hr Hv) as [H0|Hin].
    - destruct Hs as [_ Hf]. rewrite Hf in H0; [discriminate|].
      apply in_flat_map. exists n. split; assumption.
    - apply in_app_iff in Hn. destruct Hn as [Hn|Hn]; [exact Hn|].
      exfalso. destruct Hs as [Hnd _]. rewrite flat_map_app in Hnd.
      eapply NoDup_app_disj; [exact Hnd|exact Hin|]. apply in_flat_map. exists n. split; assumption.
  Qed.

  Lemma Forall2_in_l {A B} (R : A -> B -> Prop) l l' x :
    Forall2 R l l' -> In x l -> exists y, In y l' /\ R x y.
  Proof.
    induction 1 as [|a b l l' Hab Hf IH]; intros []; subst.
    - exists b. split; [left; reflexivity|exact Hab].
    - destruct (IH H) as [y [Hy Hr]]. exists y. split; [right; exact Hy|exact Hr].
  Qed.
End RunFacts.
