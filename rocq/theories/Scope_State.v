(** How code changes the variables of the open blocks. *)
From Verif Require Import IR_Model Scope_Spec.
From Coq Require Import Lia.

(** * The same variables with the same values *)
Definition same : state -> state -> Prop := Forall2 (fun f g : frame => forall x, f x = g x).
Lemma same_refl s : same s s.
Proof. induction s; constructor; auto. Qed.
Lemma same_sym s t : same s t -> same t s.
Proof. induction 1; constructor; auto. Qed.
Lemma same_trans s t u : same s t -> same t u -> same s u.
Proof.
  intros H. revert u. induction H as [|f g s t Hf H IH]; intros u K; [exact K|]. inversion K; subst. constructor; [|apply IH; assumption].
  intros x. rewrite Hf. auto.
Qed.
Lemma same_has s t x : same s t -> has s x = has t x.
Proof. induction 1 as [|f g s t Hf H IH]; [reflexivity|]. cbn. rewrite Hf, IH. reflexivity. Qed.
Lemma same_both s t u : same s t -> same s u -> same s (both t u).
Proof.
  intros H. revert u. induction H as [|f g s t Hf H IH]; intros u K; inversion K; subst; cbn; constructor; [|apply IH; assumption].
  intros x. unfold both_frames. rewrite <- Hf. match goal with H : forall x, f x = _ |- _ => rewrite <- H end. destruct (f x) as [[]|]; reflexivity.
Qed.
Lemma both_same s s' t t' : same s s' -> same t t' -> same (both s t) (both s' t').
Proof.
  intros H. revert t t'. induction H as [|f g s s' Hf H IH]; intros t t' K; destruct K as [|f2 g2 t2 t2' Hg Ht]; cbn; constructor; [|apply IH; assumption].
  intros x. unfold both_frames. rewrite <- Hf, <- Hg. reflexivity.
Qed.
Lemma set_same (f g : frame) x b : (forall y, f y = g y) -> forall y, set f x b y = set g x b y.
Proof. intros H y. unfold set. destruct (String.eqb x y); auto. Qed.
Lemma put_same s t x b : same s t -> same (put s x b) (put t x b).
Proof.
  induction 1 as [|f g s t Hf H IH]; [constructor|]. cbn. rewrite <- Hf. destruct (f x); constructor; auto. apply set_same. exact Hf.
Qed.
Lemma declare_same s t xs : same s t -> same (declare s xs) (declare t xs).
Proof.
  intros [|f g s' t' Hf H]; [constructor|]. cbn. constructor; [|exact H]. revert f g Hf. induction xs as [|x xs IH]; intros f g Hf; [exact Hf|].
  cbn. apply IH. apply set_same. exact Hf.
Qed.
Lemma tl_same s t : same s t -> same (tl s) (tl t).
Proof. intros [|f g s' t' _ H]; [constructor|exact H]. Qed.

(** * Running code, up to [same] *)
Lemma stmt_rect_ (P : stmt -> Prop) :
  (forall x h, P (Use x h)) -> (forall xs, P (Let xs)) -> (forall x, P (Assign x)) ->
  (forall a b, Forall P a -> Forall P b -> P (If_ a b)) -> (forall a, Forall P a -> P (Block a)) -> (forall a, Forall P a -> P (Loop_ a)) ->
  forall c, P c.
Proof.
  intros Hu Hl Ha Hi Hb Ho. fix IH 1. intros [x h|xs|x|a b|a|a]; [apply Hu|apply Hl|apply Ha| | |].
  - apply Hi; [clear b; induction a as [|c a IHa]|clear a; induction b as [|c b IHb]]; constructor; auto.
  - apply Hb. induction a as [|c a IHa]; constructor; auto.
  - apply Ho. induction a as [|c a IHa]; constructor; auto.
Qed.
Definition respects (c : stmt) : Prop := forall s t s', same s t -> exec1 c s = Some s' -> exists t', exec1 c t = Some t' /\ same s' t'.
Lemma exec_same_all l : Forall respects l -> forall s t s', same s t -> exec l s = Some s' -> exists t', exec l t = Some t' /\ same s' t'.
Proof.
  induction 1 as [|c l Hc _ IH]; intros s t s' E X; cbn [exec] in *; [injection X as <-; eauto|].
  destruct (exec1 c s) as [s1|] eqn:E1; [|discriminate]. destruct (Hc s t s1 E E1) as (t1 & -> & E2). exact (IH s1 t1 s' E2 X).
Qed.
Lemma block_same l : Forall respects l -> forall s t s', same s t -> option_map (@tl frame) (exec l (empty :: s)) = Some s' ->
  exists t', option_map (@tl frame) (exec l (empty :: t)) = Some t' /\ same s' t'.
Proof.
  intros H s t s' E X. destruct (exec l (empty :: s)) as [s1|] eqn:E1; [|discriminate]. injection X as <-.
  destruct (exec_same_all l H (empty :: s) (empty :: t) s1) as (t1 & -> & E2); [constructor; auto|exact E1|]. exists (tl t1). split; [reflexivity|apply tl_same; exact E2].
Qed.
Lemma all_respect : forall c, respects c.
Proof.
  apply stmt_rect_.
  - intros x h s t s' E X. cbn [exec1] in *. rewrite <- (same_has s t x E). destruct (has s x); [|discriminate]. injection X as <-.
    eexists. split; [reflexivity|]. destruct h; [apply put_same|..]; exact E.
  - intros xs s t s' E X. cbn [exec1] in *. injection X as <-. eexists. split; [reflexivity|apply declare_same; exact E].
  - intros x s t s' E X. cbn [exec1] in *. injection X as <-. eexists. split; [reflexivity|apply put_same; exact E].
  - intros a b Ha Hb s t s' E X.
    change (exec1 (If_ a b) s) with (match option_map (@tl frame) (exec a (empty :: s)), option_map (@tl frame) (exec b (empty :: s)) with Some s1, Some s2 => Some (both s1 s2) | _, _ => None end) in X.
    change (exec1 (If_ a b) t) with (match option_map (@tl frame) (exec a (empty :: t)), option_map (@tl frame) (exec b (empty :: t)) with Some s1, Some s2 => Some (both s1 s2) | _, _ => None end).
    destruct (option_map (@tl frame) (exec a (empty :: s))) as [s1|] eqn:E1; [|discriminate]. destruct (option_map (@tl frame) (exec b (empty :: s))) as [s2|] eqn:E2; [|discriminate]. injection X as <-.
    destruct (block_same a Ha s t s1 E E1) as (t1 & -> & Q1). destruct (block_same b Hb s t s2 E E2) as (t2 & -> & Q2).
    eexists. split; [reflexivity|apply both_same; assumption].
  - intros a Ha s t s' E X. exact (block_same a Ha s t s' E X).
  - intros a Ha s t s' E X.
    change (exec1 (Loop_ a) s) with (match option_map (@tl frame) (exec a (empty :: s)) with None => None | Some s1 => match option_map (@tl frame) (exec a (empty :: s1)) with None => None | Some s2 => Some (both s (both s1 s2)) end end) in X.
    change (exec1 (Loop_ a) t) with (match option_map (@tl frame) (exec a (empty :: t)) with None => None | Some s1 => match option_map (@tl frame) (exec a (empty :: s1)) with None => None | Some s2 => Some (both t (both s1 s2)) end end).
    destruct (option_map (@tl frame) (exec a (empty :: s))) as [s1|] eqn:E1; [|discriminate]. destruct (block_same a Ha s t s1 E E1) as (t1 & -> & Q1).
    destruct (option_map (@tl frame) (exec a (empty :: s1))) as [s2|] eqn:E2; [|discriminate]. destruct (block_same a Ha s1 t1 s2 Q1 E2) as (t2 & -> & Q2). injection X as <-.
    eexists. split; [reflexivity|]. apply both_same; [exact E|apply both_same; assumption].
Qed.
Lemma exec_same l s t s' : same s t -> exec l s = Some s' -> exists t', exec l t = Some t' /\ same s' t'.
Proof. apply exec_same_all. apply Forall_forall. intros c _. apply all_respect. Qed.

(** [l] takes the state [s] to [s']. *)
Definition runs (l : list stmt) (s s' : state) : Prop := exists t, exec l s = Some t /\ same s' t.
Lemma runs_of l s s' : exec l s = Some s' -> runs l s s'.
Proof. intros H. exists s'. split; [exact H|apply same_refl]. Qed.
Lemma exec_app_ a : forall b s, exec (a ++ b) s = match exec a s with Some s' => exec b s' | None => None end.
Proof. induction a as [|c a IH]; intros b s; [reflexivity|]. cbn [app exec]. destruct (exec1 c s); [apply IH|reflexivity]. Qed.
Lemma runs_app a b s s1 s2 : runs a s s1 -> runs b s1 s2 -> runs (a ++ b) s s2.
Proof.
  intros (t1 & X1 & E1) (t2 & X2 & E2). destruct (exec_same b s1 t1 t2 E1 X2) as (t3 & X3 & E3).
  exists t3. split; [rewrite exec_app_, X1; exact X3|eapply same_trans; eassumption].
Qed.
Lemma runs_same l s s1 s2 : runs l s s1 -> same s1 s2 -> runs l s s2.
Proof. intros (t & X & E) H. exists t. split; [exact X|]. eapply same_trans; [apply same_sym; exact H|exact E]. Qed.
Lemma runs_block a s f s' : runs a (empty :: s) (f :: s') -> runs [Block a] s s'.
Proof.
  intros (t & X & E). exists (tl t). split; [|exact (tl_same _ _ E)].
  transitivity (match option_map (@tl frame) (exec a (empty :: s)) with Some s1 => exec [] s1 | None => None end); [reflexivity|]. rewrite X. reflexivity.
Qed.
Lemma runs_if a b s f g s1 s2 : runs a (empty :: s) (f :: s1) -> runs b (empty :: s) (g :: s2) -> runs [If_ a b] s (both s1 s2).
Proof.
  intros (t1 & X1 & E1) (t2 & X2 & E2). exists (both (tl t1) (tl t2)). split; [|exact (both_same _ _ _ _ (tl_same _ _ E1) (tl_same _ _ E2))].
  transitivity (match (match option_map (@tl frame) (exec a (empty :: s)), option_map (@tl frame) (exec b (empty :: s)) with
    Some s1, Some s2 => Some (both s1 s2) | _, _ => None end) with None => None | Some s' => exec [] s' end); [reflexivity|].
  rewrite X1, X2. reflexivity.
Qed.
Lemma runs_loop a s f g s1 s2 : runs a (empty :: s) (f :: s1) -> runs a (empty :: s1) (g :: s2) -> runs [Loop_ a] s (both s (both s1 s2)).
Proof.
  intros (t1 & X1 & E1) (t2 & X2 & E2). pose proof (tl_same _ _ E1) as Q1. cbn [tl] in Q1.
  destruct (exec_same a (empty :: s1) (empty :: tl t1) t2) as (t3 & X3 & E3); [constructor; auto|exact X2|].
  exists (both s (both (tl t1) (tl t3))). split.
  - transitivity (match (match option_map (@tl frame) (exec a (empty :: s)) with
      | None => None | Some u1 => match option_map (@tl frame) (exec a (empty :: u1)) with None => None | Some u2 => Some (both s (both u1 u2)) end end)
      with None => None | Some s' => exec [] s' end); [reflexivity|]. rewrite X1. cbn [option_map]. rewrite X3. reflexivity.
  - apply both_same; [apply same_refl|]. apply both_same; [exact Q1|]. exact (tl_same _ _ (same_trans _ _ _ E2 E3)).
Qed.

(** * Variables that may lose their value *)
(** The blocks [s] have the same variables as [s']; only variables in [K] differ,
    and each only in the innermost block that has it. *)
Fixpoint evolve (K : string -> Prop) (s s' : state) : Prop :=
  match s, s' with
  | [], [] => True
  | f :: r, f' :: r' => (forall x, f x = None <-> f' x = None) /\ (forall x, ~ K x -> f' x = f x) /\ evolve (fun x => K x /\ f x = None) r r'
  | _, _ => False
  end.
Lemma evolve_refl K s : evolve K s s.
Proof. revert K. induction s as [|f s IH]; intros K; cbn; [exact I|]. split; [tauto|]. split; [reflexivity|apply IH]. Qed.
Lemma evolve_weaken s : forall (K K' : string -> Prop) s', (forall x, K x -> K' x) -> evolve K s s' -> evolve K' s s'.
Proof.
  induction s as [|f s IH]; intros K K' [|f' s'] H E; cbn in *; auto. destruct E as (A & B & C). split; [exact A|]. split; [intros x Hx; apply B; auto|].
  eapply IH; [|exact C]. cbn beta. intros x [Hx Hf]. auto.
Qed.
Lemma evolve_trans s : forall (K : string -> Prop) s1 s2, evolve K s s1 -> evolve K s1 s2 -> evolve K s s2.
Proof.
  induction s as [|f s IH]; intros K [|f1 s1] [|f2 s2] E F; cbn in *; try contradiction; auto. destruct E as (A & B & C), F as (A' & B' & C').
  split; [intros x; rewrite A; apply A'|]. split; [intros x Hx; rewrite B', B; auto|]. eapply IH; [exact C|].
  eapply evolve_weaken; [|exact C']. cbn beta. intros x [Hx Hf]. split; [exact Hx|apply A; exact Hf].
Qed.
Lemma evolve_none s : forall (K : string -> Prop) s', (forall x, K x -> False) -> evolve K s s' -> same s s'.
Proof.
  induction s as [|f s IH]; intros K [|f' s'] H E; cbn in E; try contradiction; constructor.
  - intros x. symmetry. apply E. exact (H x).
  - apply (IH (fun x => K x /\ f x = None)); [|exact (proj2 (proj2 E))]. intros x [Hx _]. exact (H x Hx).
Qed.
Lemma evolve_same s : forall (K : string -> Prop) s1 s2, evolve K s s1 -> same s1 s2 -> evolve K s s2.
Proof.
  induction s as [|f s IH]; intros K [|f1 s1] s2 E H; inversion H as [|? ? ? ? Hf Ht]; subst; cbn in *; try contradiction; auto. destruct E as (A & B & C).
  split; [intros x; rewrite A, Hf; tauto|]. split; [intros x Hx; rewrite <- Hf; auto|]. eapply IH; eassumption.
Qed.
Lemma evolve_put s : forall (K : string -> Prop) x, K x -> evolve K s (put s x false).
Proof.
  induction s as [|f s IH]; intros K x Hx; cbn; [exact I|]. destruct (f x) as [v|] eqn:E.
  - split; [|split; [|apply evolve_refl]].
    + intros y. unfold set. destruct (String.eqb_spec x y) as [<-|]; [rewrite E; split; discriminate|tauto].
    + intros y Hy. unfold set. destruct (String.eqb_spec x y) as [<-|]; [contradiction|reflexivity].
  - split; [tauto|]. split; [reflexivity|]. apply IH. auto.
Qed.

(** The top block gets the variables [O]; apart from that only variables in
    [T] change. *)
Definition grown (T : string -> Prop) (O : list string) (s s' : state) : Prop :=
  match s, s' with
  | f :: r, f' :: r' => (forall x, f' x = None <-> (f x = None /\ ~ In x O)) /\ (forall x, ~ In x O -> ~ T x -> f' x = f x) /\ evolve (fun x => T x /\ f x = None) r r'
  | _, _ => False
  end.
Lemma grown_refl T f r : grown T [] (f :: r) (f :: r).
Proof. split; [cbn; tauto|]. split; [reflexivity|apply evolve_refl]. Qed.
Lemma grown_trans (T T2 : string -> Prop) O1 O2 s s1 s2 : (forall x, T2 x -> T x \/ In x O1) -> grown T O1 s s1 -> grown T2 O2 s1 s2 -> grown T (O1 ++ O2) s s2.
Proof.
  destruct s as [|f r], s1 as [|f1 r1], s2 as [|f2 r2]; cbn; try contradiction. intros HT (A & B & C) (A' & B' & C'). split; [|split].
  - intros x. rewrite A', A, in_app_iff. tauto.
  - intros x Hx Hn. rewrite in_app_iff in Hx. rewrite B', B; auto. intros H. destruct (HT x H); tauto.
  - eapply evolve_trans; [exact C|]. eapply evolve_weaken; [|exact C']. cbn beta. intros x [Hx Hf]. apply A in Hf. destruct Hf as [Hf Ho].
    destruct (HT x Hx); tauto.
Qed.
Lemma grown_weaken (T T' : string -> Prop) O s s' : (forall x, T x -> T' x) -> grown T O s s' -> grown T' O s s'.
Proof.
  destruct s as [|f r], s' as [|f' r']; cbn; try contradiction. intros H (A & B & C). split; [exact A|]. split; [intros; apply B; auto|].
  eapply evolve_weaken; [|exact C]. cbn beta. intros x [Hx Hf]. auto.
Qed.
Lemma grown_same T O s s1 s2 : grown T O s s1 -> same s1 s2 -> grown T O s s2.
Proof.
  destruct s as [|f r], s1 as [|f1 r1]; cbn; try contradiction. intros (A & B & C) H. inversion H as [|? ? ? ? Hf Ht]; subst. split; [|split].
  - intros x. rewrite <- Hf. apply A.
  - intros x H1 H2. rewrite <- Hf. auto.
  - eapply evolve_same; eassumption.
Qed.
Lemma grown_evolve T f r s' : evolve T (f :: r) s' -> grown T [] (f :: r) s'.
Proof. destruct s' as [|f' r']; cbn; [contradiction|]. intros (A & B & C). split; [intros x; rewrite <- A; tauto|]. split; [auto|exact C]. Qed.
Lemma grown_evolves T f r s' : grown T [] (f :: r) s' -> evolve T (f :: r) s'.
Proof. destruct s' as [|f' r']; cbn; [contradiction|]. intros (A & B & C). split; [intros x; rewrite A; tauto|]. split; [auto|exact C]. Qed.

(** * Reading and declaring *)
Lemma has_put s x y b : has s x = true -> has (put s x b) y = if String.eqb x y then b else has s y.
Proof.
  induction s as [|f r IH]; intros H; [discriminate|]. cbn in *. destruct (f x) as [v|] eqn:E.
  - cbn. unfold set. destruct (String.eqb x y); reflexivity.
  - cbn. rewrite IH by exact H. destruct (String.eqb_spec x y) as [->|]; [rewrite E; reflexivity|reflexivity].
Qed.
Lemma set_dom f x b y : set f x b y = None <-> (f y = None /\ x <> y).
Proof. unfold set. destruct (String.eqb_spec x y); [split; [discriminate|intros []; congruence]|tauto]. Qed.
Lemma declare_dom xs : forall f y, fold_left (fun f x => set f x true) xs f y = None <-> (f y = None /\ ~ In y xs).
Proof.
  induction xs as [|x xs IH]; intros f y; cbn [fold_left]; [cbn; tauto|]. rewrite IH, set_dom. cbn. tauto.
Qed.
Lemma declare_other xs : forall f y, ~ In y xs -> fold_left (fun f x => set f x true) xs f y = f y.
Proof.
  induction xs as [|x xs IH]; intros f y H; [reflexivity|]. cbn [fold_left]. rewrite IH by (intros K; apply H; right; exact K).
  unfold set. destruct (String.eqb_spec x y); [exfalso; apply H; left; assumption|reflexivity].
Qed.
Lemma grown_declare T f r xs : grown T xs (f :: r) (fold_left (fun f x => set f x true) xs f :: r).
Proof. split; [intros x; apply declare_dom|]. split; [intros x H _; apply declare_other; exact H|apply evolve_refl]. Qed.
Lemma runs_let xs f r : runs [Let xs] (f :: r) (fold_left (fun f x => set f x true) xs f :: r).
Proof. apply runs_of. reflexivity. Qed.
