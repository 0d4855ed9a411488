(** Lemmas about the code emitted for control flow. *)
From Coq Require Import Lia ZifyBool ZifyNat ZifyN.
From Verif Require Import ShapeRun_Spec ShapeRun_Model ShapeRun_Proofs Index_Spec.
From Verif Require Import TensorRun_Spec TensorRun_Model TensorRun_Proofs TensorRun_Nodes.
From Verif Require Import Control_Spec Control_Model Control_Cover.
Import Tensor_Spec BinOps_Spec RankOps_Spec ShapeRun_Spec TensorRun_Spec Control_Spec Control_Model Control_Cover.
Open Scope string_scope.
Open Scope list_scope.

(** ** Running code *)
Lemma run_mono : forall f p e e', run f p e = Done e' -> forall g, (f <= g)%nat -> run g p e = Done e'.
Proof.
  induction f as [|f IH]; intros p e e' H g L; [discriminate H|].
  destruct g as [|g]; [lia|]. assert (L' : (f <= g)%nat) by lia. clear L.
  cbn [run] in *. destruct p as [|s r]; [exact H|]. cbv zeta in *.
  assert (N1 : forall o : option cenv, match o with Some e => run f r e | None => Fails end = Done e' ->
                                      match o with Some e => run g r e | None => Fails end = Done e').
  { intros [x|] Hx; [|discriminate Hx]. eapply IH; [exact Hx|exact L']. }
  destruct s; try (apply N1; exact H).
  - destruct (run f b e) as [e1| |] eqn:E; try discriminate H. rewrite (IH _ _ _ E g L'). apply N1. exact H.
  - destruct (eval e c) as [[[t|[z|[|]|y]|l]|l|k]|]; try discriminate H.
    + destruct (run f b1 e) as [e1| |] eqn:E; try discriminate H. rewrite (IH _ _ _ E g L'). apply N1. exact H.
    + destruct (run f b2 e) as [e1| |] eqn:E; try discriminate H. rewrite (IH _ _ _ E g L'). apply N1. exact H.
  - destruct (look e c) as [[[t|[z|[|]|y]|l]|l|k]|]; try discriminate H.
    + destruct (look e i) as [[[t|[z|y|z]|l]|l|k]|]; try discriminate H.
      destruct (eval e m) as [[[t|[y|y|y]|l]|l|k]|]; try discriminate H.
      destruct (z <? y)%Z; [|eapply IH; [exact H|exact L']].
      destruct (run f b e) as [e1| |] eqn:E; try discriminate H. rewrite (IH _ _ _ E g L'). eapply IH; [exact H|exact L'].
    + eapply IH; [exact H|exact L'].
  - destruct (look e upto) as [[r0|l|k]|]; try discriminate H.
    destruct (from <? k)%N; [|eapply IH; [exact H|exact L']].
    destruct (run f b _) as [e1| |] eqn:E; try discriminate H. rewrite (IH _ _ _ E g L'). eapply IH; [exact H|exact L'].
Qed.

Definition ends (p : list cstmt) (e e' : cenv) : Prop := exists k, run k p e = Done e'.
Lemma ends_nil e : ends [] e e.
Proof. exists 1%nat. reflexivity. Qed.
Lemma two_runs p q e1 e1' e2 e2' : ends p e1 e1' -> ends q e2 e2' -> exists k, run k p e1 = Done e1' /\ run k q e2 = Done e2'.
Proof. intros [a A] [b B]. exists (a + b)%nat. split; eapply run_mono; eauto; lia. Qed.
(** One step of each kind. *)
Definition simple (s : cstmt) (e : cenv) : option cenv :=
  match s with
  | SLeaf xs s => obind (texec (vars e) s) (fun vs => declare xs (map V vs) e)
  | SLet x ex => option_map (fun v => (x, v) :: e) (eval e ex)
  | SSet x ex => obind (eval e ex) (fun v => assign x v e)
  | SIncr x => match look e x with Some (V (RNative (EI z))) => assign x (V (RNative (EI (z + 1)))) e | _ => None end
  | SPush x y => match look e x, look e y with Some (VVec l), Some (V r) => assign x (VVec (l ++ [r])) e | _, _ => None end
  | SReverse x => match look e x with Some (VVec l) => assign x (VVec (rev l)) e | _ => None end
  | _ => None
  end.
Lemma ends_simple s r e e1 e' : simple s e = Some e1 -> ends r e1 e' -> ends (s :: r) e e'.
Proof. intros H [k K]. exists (S k). destruct s; cbn [simple] in H; try discriminate H; cbn [run]; cbv zeta; rewrite H; exact K. Qed.
Lemma ends_block xs b rs r e e1 vs e2 e' : ends b e e1 -> mapo (eval e1) rs = Some vs -> declare xs vs (leave e e1) = Some e2 ->
  ends r e2 e' -> ends (SBlock xs b rs :: r) e e'.
Proof. intros B M D R. destruct (two_runs _ _ _ _ _ _ B R) as (k & K1 & K2). exists (S k). cbn [run]. cbv zeta. rewrite K1, M. cbn [obind]. rewrite D. exact K2. Qed.
Lemma ends_if xs c b b1 r1 b2 r2 r e e1 vs e2 e' : eval e c = Some (V (RNative (EB b))) -> ends (if b then b1 else b2) e e1 ->
  mapo (eval e1) (if b then r1 else r2) = Some vs -> declare xs vs (leave e e1) = Some e2 -> ends r e2 e' -> ends (SIf xs c b1 r1 b2 r2 :: r) e e'.
Proof. intros E B M D R. destruct (two_runs _ _ _ _ _ _ B R) as (k & K1 & K2). exists (S k). cbn [run]. cbv zeta. rewrite E, K1, M. cbn [obind]. rewrite D. exact K2. Qed.
Lemma ends_while_step c i m b r e z k e1 e' : look e c = Some (V (RNative (EB true))) -> look e i = Some (V (RNative (EI z))) ->
  eval e m = Some (V (RNative (EI k))) -> (z < k)%Z -> ends b e e1 -> ends (SWhile c i m b :: r) (leave e e1) e' -> ends (SWhile c i m b :: r) e e'.
Proof.
  intros C I Em L B R. destruct (two_runs _ _ _ _ _ _ B R) as (j & K1 & K2). exists (S j). cbn [run]. cbv zeta. rewrite C, I, Em.
  destruct (Z.ltb_spec z k) as [_|Hk]; [|lia]. rewrite K1. exact K2.
Qed.
Lemma ends_while_stop c i m b r e e' : look e c = Some (V (RNative (EB false))) -> ends r e e' -> ends (SWhile c i m b :: r) e e'.
Proof. intros C [k R]. exists (S k). cbn [run]. cbv zeta. rewrite C. exact R. Qed.
Lemma ends_while_limit c i m b r e z k e' : look e c = Some (V (RNative (EB true))) -> look e i = Some (V (RNative (EI z))) ->
  eval e m = Some (V (RNative (EI k))) -> (k <= z)%Z -> ends r e e' -> ends (SWhile c i m b :: r) e e'.
Proof. intros C I Em L [j R]. exists (S j). cbn [run]. cbv zeta. rewrite C, I, Em. destruct (Z.ltb_spec z k) as [Hk|_]; [lia|]. exact R. Qed.
Lemma ends_for_step i k n b r e m e1 e' : look e n = Some (VUsize m) -> (k < m)%N -> ends b ((i, VUsize k) :: e) e1 ->
  ends (SFor i (k + 1) n b :: r) (leave e e1) e' -> ends (SFor i k n b :: r) e e'.
Proof. intros N1 L B R. destruct (two_runs _ _ _ _ _ _ B R) as (j & K1 & K2). exists (S j). cbn [run]. cbv zeta. rewrite N1. destruct (N.ltb_spec k m) as [_|Hk]; [|lia]. rewrite K1. exact K2. Qed.
Lemma ends_for_stop i k n b r e m e' : look e n = Some (VUsize m) -> (m <= k)%N -> ends r e e' -> ends (SFor i k n b :: r) e e'.
Proof. intros N1 L [j R]. exists (S j). cbn [run]. cbv zeta. rewrite N1. destruct (N.ltb_spec k m) as [Hk|_]; [lia|]. exact R. Qed.

Lemma ends_app p q e e1 e2 : ends p e e1 -> ends q e1 e2 -> ends (p ++ q) e e2.
Proof.
  intros [k K] Q. revert p e K. induction k as [|f IH]; intros p e H; [discriminate H|].
  cbn [run] in H. destruct p as [|s r]; [injection H as ->; exact Q|]. cbv zeta in H. cbn [app].
  assert (Sm : forall s e, (match simple s e with Some e => run f r e | None => Fails end = Done e1) -> ends (s :: r ++ q) e e2).
  { intros s' e' Hx. destruct (simple s' e') as [x|] eqn:Es; [|discriminate Hx]. eapply ends_simple; [exact Es|]. apply IH. exact Hx. }
  destruct s; try (apply Sm; exact H).
  - destruct (run f b e) as [x| |] eqn:E; try discriminate H.
    destruct (mapo (eval x) rs) as [vs|] eqn:Em; cbn [obind] in H; [|discriminate H]. destruct (declare xs vs (leave e x)) as [y|] eqn:Ed; [|discriminate H].
    eapply ends_block; [exists f; exact E|exact Em|exact Ed|apply IH; exact H].
  - destruct (eval e c) as [[[t|[z|bb|y]|l]|l|k]|] eqn:Ec; try discriminate H.
    destruct (run f (if bb then b1 else b2) e) as [x| |] eqn:E; try discriminate H.
    destruct (mapo (eval x) (if bb then r1 else r2)) as [vs|] eqn:Em; cbn [obind] in H; [|discriminate H]. destruct (declare xs vs (leave e x)) as [y|] eqn:Ed; [|discriminate H].
    eapply ends_if; [exact Ec|exists f; exact E|exact Em|exact Ed|apply IH; exact H].
  - destruct (look e c) as [[[t|[z|[|]|y]|l]|l|k]|] eqn:Ec; try discriminate H.
    + destruct (look e i) as [[[t|[z|y|z]|l]|l|k]|] eqn:Ei; try discriminate H.
      destruct (eval e m) as [[[t|[y|y|y]|l]|l|k]|] eqn:Em; try discriminate H.
      destruct (Z.ltb_spec z y) as [Hlt|Hge].
      * destruct (run f b e) as [x| |] eqn:E; try discriminate H.
        eapply ends_while_step; [exact Ec|exact Ei|exact Em|exact Hlt|exists f; exact E|]. apply (IH (SWhile c i m b :: r)). exact H.
      * eapply ends_while_limit; [exact Ec|exact Ei|exact Em|exact Hge|]. apply IH. exact H.
    + eapply ends_while_stop; [exact Ec|]. apply IH. exact H.
  - destruct (look e upto) as [[r0|l|k]|] eqn:En; try discriminate H. destruct (N.ltb_spec from k) as [Hlt|Hge].
    + destruct (run f b _) as [x| |] eqn:E; try discriminate H.
      eapply ends_for_step; [exact En|exact Hlt|exists f; exact E|]. apply (IH (SFor i (from + 1) upto b :: r)). exact H.
    + eapply ends_for_stop; [exact En|exact Hge|]. apply IH. exact H.
Qed.
Lemma ends_one s e e1 : simple s e = Some e1 -> ends [s] e e1.
Proof. intros H. eapply ends_simple; [exact H|apply ends_nil]. Qed.

(** ** Variables *)
Lemma look_app l e x : look (l ++ e) x = match look l x with Some v => Some v | None => look e x end.
Proof. induction l as [|[y v] l IH]; cbn; [reflexivity|]. destruct (String.eqb x y); [reflexivity|exact IH]. Qed.
Lemma look_none l x : ~ In x (map fst l) -> look l x = None.
Proof. induction l as [|[y v] l IH]; cbn; intros H; [reflexivity|]. destruct (String.eqb_spec x y) as [->|]; [elim H; left; reflexivity|]. apply IH. tauto. Qed.
Lemma look_some_in l x v : look l x = Some v -> In x (map fst l).
Proof. induction l as [|[y w] l IH]; cbn; [discriminate|]. destruct (String.eqb_spec x y) as [->|]; [left; reflexivity|right; auto]. Qed.
Lemma look_past l e x : ~ In x (map fst l) -> look (l ++ e) x = look e x.
Proof. intros H. rewrite look_app, look_none by exact H. reflexivity. Qed.
Lemma look_frame F e x v : look F x = Some v -> look (F ++ e) x = Some v.
Proof. intros H. rewrite look_app, H. reflexivity. Qed.
Lemma leave_app l F F' e : length F' = length F -> leave (F ++ e) (l ++ F' ++ e) = F' ++ e.
Proof.
  intros H. unfold leave. rewrite !app_length, H. replace (length l + (length F + length e) - (length F + length e))%nat with (length l) by lia.
  rewrite skipn_app, skipn_all, Nat.sub_diag. reflexivity.
Qed.
Lemma leave_app0 l e : leave e (l ++ e) = e.
Proof. apply (leave_app l [] [] e). reflexivity. Qed.
Lemma assign_in x v : forall F v0, look F x = Some v0 -> same_rust v0 v = true ->
  exists F', (forall l e, ~ In x (map fst l) -> assign x v (l ++ F ++ e) = Some (l ++ F' ++ e)) /\ map fst F' = map fst F /\
             (forall y, look F' y = if String.eqb y x then Some v else look F y).
Proof.
  assert (A : forall F v0, look F x = Some v0 -> same_rust v0 v = true ->
    exists F', (forall e, assign x v (F ++ e) = Some (F' ++ e)) /\ map fst F' = map fst F /\ (forall y, look F' y = if String.eqb y x then Some v else look F y)).
  { induction F as [|[y w] F IH]; intros v0 H S; cbn in H; [discriminate|]. destruct (String.eqb_spec x y) as [->|Hne].
    - injection H as ->. exists ((y, v) :: F). split; [|split; [reflexivity|]].
      + intros e. cbn. rewrite String.eqb_refl, S. reflexivity.
      + intros z. cbn. destruct (String.eqb z y); reflexivity.
    - destruct (IH v0 H S) as (F' & A & B & C). exists ((y, w) :: F'). split; [|split].
      + intros e. cbn. destruct (String.eqb_spec x y); [contradiction|]. rewrite A. reflexivity.
      + cbn. f_equal. exact B.
      + intros z. cbn. rewrite C. destruct (String.eqb_spec z y) as [->|]; [|reflexivity]. destruct (String.eqb_spec y x); [congruence|reflexivity]. }
  intros F v0 H S. destruct (A F v0 H S) as (F' & A1 & B & C). exists F'. split; [|auto].
  induction l as [|[y w] l IH]; intros e Hn; cbn; [apply A1|]. destruct (String.eqb_spec x y) as [->|]; [elim Hn; left; reflexivity|].
  rewrite IH by (intros K; apply Hn; right; exact K). reflexivity.
Qed.
Lemma declare_ok : forall xs vs e, length xs = length vs -> declare xs vs e = Some (rev (combine xs vs) ++ e).
Proof. induction xs as [|x xs IH]; intros [|v vs] e H; try discriminate H; [reflexivity|]. cbn. rewrite IH by (cbn in H; lia). rewrite <- app_assoc. reflexivity. Qed.
Lemma fst_combine {A B} : forall (xs : list A) (vs : list B), length xs = length vs -> map fst (combine xs vs) = xs.
Proof. induction xs as [|x xs IH]; intros [|v vs] H; try discriminate H; [reflexivity|]. cbn. f_equal. apply IH. cbn in H. lia. Qed.

(** ** Values at types *)
Definition held (e : cenv) (x : string) (T : argty) (t : otensor) : Prop := exists r, look e x = Some (V r) /\ stands_for (fst t) T r (snd t).
Definition held_arg (e : cenv) (a : arg) (t : otensor) : Prop := held e (aname a) (aty a) t.
Definition held_on (S : string -> Prop) (ty : string -> argty) (oe : oenv) (e : cenv) : Prop :=
  forall x t, S x -> oe x = Some t -> held e x (ty x) t.
Lemma stands_same d A B v t : same_type A B -> stands_for d A v t -> stands_for d B v t.
Proof.
  intros S (W & F & H). split; [exact W|]. split; [exact F|]. destruct A, B; cbn in S; try contradiction; destruct v; try contradiction;
    first [subst; exact H | destruct S as [S1 S2]; rewrite <- S1, <- S2; exact H].
Qed.
Lemma held_same e x A B t : same_type A B -> held e x A t -> held e x B t.
Proof. intros S (r & E & H). exists r. split; [exact E|]. eapply stands_same; eauto. Qed.
Lemma same_type_refl A : same_type A A.
Proof. destruct A; cbn; auto. Qed.
Lemma same_type_sym A B : same_type A B -> same_type B A.
Proof. destruct A, B; cbn; auto. intros [? ?]; auto. Qed.
Lemma same_type_trans A B C : same_type A B -> same_type B C -> same_type A C.
Proof. destruct A, B, C; cbn; try contradiction; try congruence. intros [? ?] [? ?]; split; congruence. Qed.
Lemma in_dtype_kind d x y : in_dtype d x -> in_dtype d y -> same_rust (V (RNative x)) (V (RNative y)) = true.
Proof.
  destruct x, y; cbn; intros H K; try reflexivity; repeat match goal with H : exists _, _ |- _ => destruct H end; subst; cbn in *;
    repeat match goal with H : _ /\ _ |- _ => destruct H end; try discriminate; destruct d; cbn in *; discriminate.
Qed.
Lemma same_rust_types A B d d' v v' t t' : stands_for d A v t -> stands_for d' B v' t' -> same_type B A -> same_rust (V v) (V v') = true.
Proof.
  intros (W & F & H) (W' & F' & H') S. destruct A, B; cbn in S; try contradiction; destruct v, v'; try contradiction.
  - destruct H as (_ & _ & ->), H' as (_ & _ & ->). reflexivity.
  - destruct H as (E1 & ->), H' as (E2 & ->). subst. apply Forall_cons_iff in F as [F _]. apply Forall_cons_iff in F' as [F' _]. eapply in_dtype_kind; eauto.
  - destruct H as (L & _), H' as (L' & _). cbn. apply Nat.eqb_eq. lia.
  - destruct H as (-> & _ & L & _), H' as (-> & _ & L' & _), S as [_ S]. cbn. apply Nat.eqb_eq. lia.
Qed.
Lemma held_past l e x T t : ~ In x (map fst l) -> held (l ++ e) x T t <-> held e x T t.
Proof. intros H. unfold held. rewrite look_past by exact H. reflexivity. Qed.
Lemma held_frame F e x T t : held F x T t -> held (F ++ e) x T t.
Proof. intros (r & E & H). exists r. split; [apply look_frame, E|exact H]. Qed.

(** The outputs of a node are declared. *)
Lemma held_declared S ty : forall os vs outs oe e, Forall (output_ok ty) os -> all_stand os vs outs -> held_on S ty oe e ->
  held_on S ty (bind_all oe (map aname os) outs) (rev (combine (map aname os) (map V vs)) ++ e).
Proof.
  induction os as [|o os IH]; intros [|v vs] [|t outs] oe e To H Hh; cbn in H; try contradiction; [exact Hh|]. cbn [map bind_all combine rev]. destruct H as [Hv H].
  apply Forall_cons_iff in To as [T1 To]. rewrite <- app_assoc. apply IH; [exact To|exact H|]. intros x t' Sx Hx. unfold ShapeRun_Spec.bind in *.
  destruct (String.eqb_spec x (aname o)) as [->|Hne].
  - injection Hx as <-. exists v. cbn. rewrite String.eqb_refl. split; [reflexivity|]. rewrite <- T1. exact Hv.
  - destruct (Hh _ _ Sx Hx) as (r & E & Hr). exists r. cbn. destruct (String.eqb_spec x (aname o)); [contradiction|]. split; assumption.
Qed.
Lemma all_stand_forall2 : forall os vs outs, all_stand os vs outs <-> length vs = length os /\ length outs = length os /\
  (forall k o v t, nth_error os k = Some o -> nth_error vs k = Some v -> nth_error outs k = Some t -> stands_for (fst t) (aty o) v (snd t)).
Proof.
  induction os as [|o os IH]; intros [|v vs] [|t outs]; cbn; (split; [intros H; try contradiction|intros (A & B & C); try discriminate]).
  - split; [reflexivity|]. split; [reflexivity|]. intros [|k]; discriminate.
  - exact I.
  - destruct H as [H1 H2]. apply IH in H2 as (A & B & C). split; [lia|]. split; [lia|]. intros [|k] o' v' t' E1 E2 E3; cbn in *; [congruence|]. eapply C; eauto.
  - split; [apply (C 0%nat); reflexivity|]. apply IH. split; [lia|]. split; [lia|]. intros k o' v' t' E1 E2 E3. apply (C (S k)); assumption.
Qed.

(** Names bound to the values of a list. *)
Lemma bind_all_at {A} : forall (fs : list arg) (vs : list A) (e : string -> option A), NoDup (names fs) -> length vs = length fs ->
  forall x t, bind_all e (names fs) vs x = Some t -> (exists k f, nth_error fs k = Some f /\ nth_error vs k = Some t /\ x = aname f) \/ (~ In x (names fs) /\ e x = Some t).
Proof.
  induction fs as [|f fs IH]; intros [|v vs] e Nd L x t H; try discriminate L; cbn [names map bind_all] in *; [right; auto|].
  apply NoDup_cons_iff in Nd as [Nf Nd]. destruct (IH vs (ShapeRun_Spec.bind e (aname f) v) Nd ltac:(cbn in L; lia) x t H) as [(k & g & A1 & A2 & A3)|[A1 A2]].
  - left. exists (S k), g. auto.
  - unfold ShapeRun_Spec.bind in A2. destruct (String.eqb_spec x (aname f)) as [->|Hne].
    + injection A2 as ->. left. exists 0%nat, f. auto.
    + right. split; [|exact A2]. intros [K|K]; [congruence|exact (A1 K)].
Qed.

(** ** Bindings of captured values *)
Section Bindings.
  Variables (exclude used : list string) (Tok : string -> argty -> Prop).
  Definition known_here (oe : oenv) (ce : cenv) : Prop :=
    forall r t, In r used -> ~ In r exclude -> oe r = Some t -> exists T, Tok r T /\ held ce r T t.
  Lemma bindings_ok : forall refs caps ws oe ce, bindable refs caps -> Forall2 (held_arg ce) caps ws ->
    (forall r c, In (r, c) (combine refs caps) -> In r used -> ~ In r exclude -> Tok r (aty c)) -> known_here oe ce ->
    exists l, ends (gen_bindings refs caps exclude used) ce (l ++ ce) /\ (forall x, In x (map fst l) -> ~ In x exclude /\ In x refs) /\
              known_here (bind_all oe refs ws) (l ++ ce).
  Proof.
    induction refs as [|r refs IH]; intros [|c caps] ws oe ce B Hc Tk K; cbn in B; try contradiction.
    { inversion Hc. subst. exists []. cbn. split; [apply ends_nil|]. split; [tauto|exact K]. }
    destruct B as (B1 & B2 & B3). inversion Hc as [|? w ? ws' H1 H2]; subst. clear Hc. rename ws' into ws. cbn [bind_all gen_bindings].
    assert (Wk : forall q oe' ce', (exists l, ends q ce' (l ++ ce') /\ (forall x, In x (map fst l) -> ~ In x exclude /\ In x refs) /\ known_here oe' (l ++ ce')) ->
                 exists l, ends q ce' (l ++ ce') /\ (forall x, In x (map fst l) -> ~ In x exclude /\ In x (r :: refs)) /\ known_here oe' (l ++ ce')).
    { intros q oe' ce' (l & X & Y & Z). exists l. split; [exact X|]. split; [|exact Z]. intros x Hx. destruct (Y x Hx). split; [assumption|right; assumption]. }
    assert (Tk' : forall r c, In (r, c) (combine refs caps) -> In r used -> ~ In r exclude -> Tok r (aty c)) by (intros; apply Tk; [right; assumption|assumption|assumption]).
    destruct (mem_str r exclude) eqn:Ex; [cbn [orb]|destruct (mem_str r used) eqn:Us; cbn [orb negb]].
    - apply Wk, IH; try assumption. intros x t Hu He Hx. unfold ShapeRun_Spec.bind in Hx. destruct (String.eqb_spec x r) as [->|]; [|apply K; assumption].
      apply mem_str_In in Ex. contradiction.
    - apply mem_str_In in Us. assert (Ne : ~ In r exclude) by (intros Hx; apply mem_str_In in Hx; congruence).
      assert (Skip : (match aty c with ShapeT _ => True | _ => False end) -> exists l, ends (gen_bindings refs caps exclude used) ce (l ++ ce) /\ (forall x, In x (map fst l) -> ~ In x exclude /\ In x refs) /\ known_here (bind_all (ShapeRun_Spec.bind oe r w) refs ws) (l ++ ce)).
      { intros Hs. apply IH; try assumption. intros x t Hu He Hx. unfold ShapeRun_Spec.bind in Hx. destruct (String.eqb_spec x r) as [->|]; [|apply K; assumption].
        injection Hx as <-. exists (aty c). split; [apply Tk; [left; reflexivity|exact Us|exact Ne]|]. destruct (aty c) eqn:Ec; try contradiction. rewrite B2. unfold held_arg in H1. rewrite Ec in H1. exact H1. }
      assert (Push : exists l, ends (SLet r (EVar (aname c)) :: gen_bindings refs caps exclude used) ce (l ++ ce) /\ (forall x, In x (map fst l) -> ~ In x exclude /\ In x (r :: refs)) /\ known_here (bind_all (ShapeRun_Spec.bind oe r w) refs ws) (l ++ ce)).
      { destruct H1 as (v & E & Sv).
        destruct (IH caps ws (ShapeRun_Spec.bind oe r w) ((r, V v) :: ce)) as (l & R1 & R2 & R3).
        - exact B3.
        - clear - H2 B1 E Sv. induction H2 as [|c' w' caps ws H _ IH2]; [constructor|]. constructor.
          + destruct H as (v' & E' & Sv'). exists (if String.eqb (aname c') r then v else v'). cbn. destruct (String.eqb_spec (aname c') r) as [Er|_]; [|split; assumption].
            destruct B1 as [B1|B1]; [|elim B1; left; exact Er]. subst r. rewrite Er, E in E'. injection E' as ->. split; [reflexivity|exact Sv'].
          + apply IH2. destruct B1 as [B1|B1]; [left; exact B1|right]. intros Hi. apply B1. right. exact Hi.
        - exact Tk'.
        - intros x t Hu He Hx. unfold ShapeRun_Spec.bind in Hx. unfold held. cbn [look]. destruct (String.eqb_spec x r) as [->|].
          + injection Hx as <-. exists (aty c). split; [apply Tk; [left; reflexivity|assumption|assumption]|]. exists v. split; [reflexivity|exact Sv].
          + apply (K x t Hu He Hx).
        - exists (l ++ [(r, V v)]). rewrite <- app_assoc. cbn [app]. split; [|split].
          + eapply ends_simple; [cbn; rewrite E; reflexivity|exact R1].
          + intros x Hx. rewrite map_app, in_app_iff in Hx. destruct Hx as [Hx|[<-|[]]]; [destruct (R2 _ Hx); split; [assumption|right; assumption]|split; [exact Ne|left; reflexivity]].
          + exact R3. }
      destruct (aty c) eqn:Ec; first [exact Push|apply Wk, Skip; exact I].
    - apply Wk, IH; try assumption. intros x t Hu He Hx. unfold ShapeRun_Spec.bind in Hx. destruct (String.eqb_spec x r) as [->|]; [|apply K; assumption].
      apply mem_str_In in Hu. congruence.
  Qed.
End Bindings.

Lemma F2_length {A B} (R : A -> B -> Prop) l m : Forall2 R l m -> length l = length m.
Proof. induction 1; cbn; congruence. Qed.
Lemma F2_nth {A B} (R : A -> B -> Prop) l m : Forall2 R l m -> forall k x y, nth_error l k = Some x -> nth_error m k = Some y -> R x y.
Proof. induction 1 as [|a b l m H _ IH]; intros [|k] x y Ex Ey; try discriminate; cbn in *; [congruence|eauto]. Qed.
Lemma F2_impl {A B} (R Q : A -> B -> Prop) l m : (forall a b, In a l -> R a b -> Q a b) -> Forall2 R l m -> Forall2 Q l m.
Proof. intros I H. induction H; constructor; [apply I; [left; reflexivity|assumption]|apply IHForall2; intros; apply I; [right; assumption|assumption]]. Qed.
Lemma app_inj_len {A} : forall (a b c d : list A), length a = length b -> a ++ c = b ++ d -> a = b /\ c = d.
Proof. induction a as [|x a IH]; intros [|y b] c d L E; try discriminate L; [auto|]. cbn in *. injection E as -> E. destruct (IH b c d ltac:(lia) E) as [-> ->]. auto. Qed.
Lemma NoDup_app_parts {A} : forall (a b : list A), NoDup (a ++ b) -> NoDup a /\ NoDup b.
Proof.
  induction a as [|x a IH]; intros b H; [split; [constructor|exact H]|]. cbn in H. apply NoDup_cons_iff in H as [N H]. destruct (IH b H) as [A1 B1]. split; [|exact B1].
  constructor; [|exact A1]. intros K. apply N, in_or_app. left. exact K.
Qed.
(** ** The proof *)
Section Control.
  Variable value : arg -> option cval.
  Variable opset : N.
  Notation constant := (constant_of value).
  Notation step := (fun n ins outs => onnx_any_node n ins outs /\ covered_any (fun a => constant_of value a <> None) n ins outs).

  Lemma gen_graph_nodes g : gen_cgraph value opset g = gen_cnodes value opset (cg_nodes g).
  Proof.
    destruct g as [i ns o]. cbn [cg_nodes]. induction ns as [|n ns IH]; [reflexivity|].
    change (gen_cgraph value opset (mkCG i (n :: ns) o)) with (obind (gen_cnode value opset n) (fun a => obind (gen_cgraph value opset (mkCG i ns o)) (fun b => Some (a ++ b)))).
    rewrite IH. reflexivity.
  Qed.

  Lemma reads_held S ty oe ce : forall args vs, reads constant oe args vs -> Forall (variable value ty) args -> held_on S ty oe ce ->
    (forall a, In a args -> S (aname a)) -> Forall2 (held_arg ce) args vs.
  Proof.
    intros args vs [M C] Va Hh Sa. revert vs M. induction args as [|a args IH]; intros vs M; cbn in M; [injection M as <-; constructor|].
    destruct (input_of constant oe a) as [t|] eqn:It; [|discriminate M]. destruct (mapo _ args) as [ts|] eqn:Mt; [|discriminate M]. injection M as <-.
    apply Forall_cons_iff in Va as [(Ra & Na & Ia & _) Va]. constructor.
    - unfold held_arg. rewrite (Ia Ra). apply Hh; [apply Sa; left; reflexivity|]. unfold input_of in It. destruct (constant a) as [c|] eqn:Ca; [|exact It].
      injection It as <-. apply (C a c (or_introl eq_refl) Ca Ra).
    - apply IH; [intros; apply C; [right; assumption|assumption|assumption]|exact Va|intros; apply Sa; right; assumption|reflexivity].
  Qed.
  Lemma reads_given S ty oe ce : forall args vs, reads constant oe args vs -> Forall (input_ok value ty) args -> held_on S ty oe ce ->
    (forall a, In a args -> run_time a \/ constant a = None -> S (aname a)) -> Forall2 (given value (vars ce)) args vs.
  Proof.
    intros args vs [M C] Va Hh Sa. revert vs M. induction args as [|a args IH]; intros vs M; cbn in M; [injection M as <-; constructor|].
    destruct (input_of constant oe a) as [t|] eqn:It; [|discriminate M]. destruct (mapo _ args) as [ts|] eqn:Mt; [|discriminate M]. injection M as <-.
    apply Forall_cons_iff in Va as [[Ia Ib] Va]. constructor; [|apply IH; [intros; apply C; [right; assumption|assumption|assumption]|exact Va|intros; apply Sa; [right; assumption|assumption]|reflexivity]].
    assert (K : run_time a -> oe (aname a) = Some t -> exists v, vars ce (aname a) = Some v /\ stands_for (fst t) (aty a) v (snd t)).
    { intros Ra E. destruct (Hh _ _ (Sa a (or_introl eq_refl) (or_introl Ra)) E) as (v & Ev & Sv). exists v. unfold vars. rewrite Ev, (Ia Ra). split; [reflexivity|exact Sv]. }
    unfold input_of in It. unfold given. destruct (constant a) as [c|] eqn:Ca.
    - injection It as <-. split; [intros c0 E; injection E as ->; reflexivity|]. split; [apply (Ib c eq_refl)|].
      intros Ra. apply K; [exact Ra|]. apply (C a c (or_introl eq_refl) Ca Ra).
    - split; [discriminate|]. destruct (Hh _ _ (Sa a (or_introl eq_refl) (or_intror Ca)) It) as (v & Ev & W & F & _). split; [split; assumption|].
      intros Ra. apply K; assumption.
  Qed.

  (** Entering a subgraph. *)
  Lemma enter refs caps g ws vs ce ty : (forall r c, In (r, c) (combine refs caps) -> In r (mentions g) -> ~ In r (names (cg_ins g)) -> same_type (aty c) (ty r)) ->
    Forall (output_ok ty) (cg_ins g) -> bindable refs caps -> NoDup (names (cg_ins g)) ->
    Forall2 (held_arg ce) caps ws -> Forall2 (held_arg ce) (cg_ins g) vs ->
    exists l, ends (gen_bindings refs caps (map aname (cg_ins g)) (used_names g)) ce (l ++ ce) /\ (forall x, In x (map fst l) -> ~ In x (names (cg_ins g)) /\ In x refs) /\
              held_on (fun x => In x (mentions g) /\ x <> "") ty (inside refs ws (cg_ins g) vs) (l ++ ce).
  Proof.
    intros Tk Hi B Nd Hc Hv.
    assert (U : forall r, In r (used_names g) <-> In r (mentions g) /\ r <> "").
    { intros r. unfold used_names, mentions. rewrite filter_In, negb_true_iff, String.eqb_neq. reflexivity. }
    destruct (bindings_ok (names (cg_ins g)) (used_names g) (fun r T => same_type T (ty r)) refs caps ws (fun _ => None) ce B Hc) as (l & R1 & R2 & R3).
    - intros r c Hin Hu He. apply U in Hu as [Hu _]. apply Tk; assumption.
    - intros r t _ _ E. discriminate E.
    - exists l. split; [exact R1|]. split; [exact R2|]. intros x t Sx Hx. unfold inside in Hx.
      apply bind_all_at in Hx; [|exact Nd|symmetry; apply (F2_length _ _ _ Hv)]. destruct Hx as [(k & f & E1 & E2 & ->)|[Nx Hx]].
      + destruct (F2_nth _ _ _ Hv _ _ _ E1 E2) as (r & E & Sr). assert (Fo : In f (cg_ins g)) by (eapply nth_error_In; exact E1).
        rewrite <- (proj1 (Forall_forall _ _) Hi f Fo). apply held_past; [|exists r; split; assumption].
        intros Hl. apply (proj1 (R2 _ Hl)). apply in_map. exact Fo.
      + destruct (R3 x t (proj2 (U x) Sx) Nx Hx) as (T & ST & Ht). eapply held_same; eassumption.
  Qed.

  (** The values for the next iteration. *)
  Definition updates (skip : bool) (fs os : list arg) : list cstmt :=
    flat_map (fun fo => if skip && String.eqb (aname (fst fo)) (aname (snd fo)) then [] else [SSet (aname (fst fo)) (EVar (aname (snd fo)))]) (combine fs os).
  Lemma updates_ok skip l e0 : forall fs os vs F, Forall2 (fun f b => same_type (aty b) (aty f)) fs os -> assignable (names fs) (names os) -> NoDup (names fs) ->
    (forall f, In f fs -> exists t, held F (aname f) (aty f) t) -> (forall x, In x (names fs) -> ~ In x (map fst l)) ->
    Forall2 (held_arg (l ++ F ++ e0)) os vs ->
    exists F', ends (updates skip fs os) (l ++ F ++ e0) (l ++ F' ++ e0) /\ map fst F' = map fst F /\ Forall2 (held_arg F') fs vs /\
               (forall x, ~ In x (names fs) -> look F' x = look F x).
  Proof.
    induction fs as [|f fs IH]; intros os vs F St As Nd Hf Hl Hv.
    { inversion St; subst. inversion Hv; subst. exists F. split; [apply ends_nil|]. split; [reflexivity|]. split; [constructor|reflexivity]. }
    inversion St as [|? b ? os' S1 S2]; subst. inversion Hv as [|? t ? vs' H1 H2]; subst. clear St Hv. rename os' into os, vs' into vs.
    cbn [names map assignable] in As. destruct As as [A1 A2]. apply NoDup_cons_iff in Nd as [Nf Nd].
    destruct H1 as (r & Er & Sr). destruct (Hf f (or_introl eq_refl)) as (t0 & r0 & E0 & S0).
    assert (Fl : ~ In (aname f) (map fst l)) by (apply Hl; left; reflexivity).
    assert (St : exists F1, ends (if skip && String.eqb (aname f) (aname b) then [] else [SSet (aname f) (EVar (aname b))]) (l ++ F ++ e0) (l ++ F1 ++ e0) /\
                 map fst F1 = map fst F /\ (forall y, look F1 y = if String.eqb y (aname f) then Some (V r) else look F y)).
    { destruct (skip && String.eqb (aname f) (aname b)) eqn:Sk.
      - apply andb_prop in Sk as [_ Sk]. apply String.eqb_eq in Sk. exists F. split; [apply ends_nil|]. split; [reflexivity|].
        intros y. destruct (String.eqb_spec y (aname f)) as [->|]; [|reflexivity]. rewrite <- Sk in Er. rewrite look_past, (look_frame _ _ _ _ E0) in Er by exact Fl. congruence.
      - destruct (assign_in (aname f) (V r) F (V r0) E0) as (F1 & G1 & G2 & G3); [eapply same_rust_types; eassumption|].
        exists F1. split; [|split; assumption]. eapply ends_one. cbn [simple eval obind]. rewrite Er. cbn [obind]. apply G1, Fl. }
    destruct St as (F1 & G1 & G2 & G3).
    assert (L1 : forall y, y <> aname f -> look (l ++ F1 ++ e0) y = look (l ++ F ++ e0) y).
    { intros y Hy. rewrite !look_app, G3. destruct (String.eqb_spec y (aname f)); [contradiction|]. reflexivity. }
    destruct (IH os vs F1) as (F' & R1 & R2 & R3 & R4).
    - exact S2.
    - exact A2.
    - exact Nd.
    - intros f' Hf'. destruct (Hf f' (or_intror Hf')) as (t' & r' & E' & S'). exists t', r'. split; [|exact S']. rewrite G3.
      destruct (String.eqb_spec (aname f') (aname f)) as [E|]; [|exact E']. elim Nf. rewrite <- E. apply in_map, Hf'.
    - intros x Hx. apply Hl. right. exact Hx.
    - assert (A1' : aname f = aname b \/ ~ In (aname f) (names os)) by exact A1. clear - H2 L1 A1' Er G3 Fl. induction H2 as [|b' t' os vs H _ IH]; [constructor|]. constructor.
      + destruct H as (r' & E' & S'). destruct (string_dec (aname b') (aname f)) as [E|N].
        * destruct A1' as [A|A]; [|elim A; left; exact E]. exists r'. split; [|exact S']. rewrite E, look_past, look_app, G3, String.eqb_refl by exact Fl.
          rewrite E, A, Er in E'. exact E'.
        * exists r'. split; [|exact S']. rewrite L1 by exact N. exact E'.
      + apply IH. destruct A1' as [A|A]; [left; exact A|right]. intros K. apply A. right. exact K.
    - exists F'. split; [|split; [|split]].
      + unfold updates. cbn [combine flat_map fst snd]. eapply ends_app; [exact G1|exact R1].
      + congruence.
      + constructor; [|exact R3]. exists r. rewrite R4, G3, String.eqb_refl by exact Nf. split; [reflexivity|]. eapply stands_same; eassumption.
      + intros x Hx. cbn [names map In] in Hx. rewrite R4, G3 by tauto. destruct (String.eqb_spec x (aname f)); [subst; tauto|reflexivity].
  Qed.
  Lemma gen_updates_eq fs os : gen_updates fs os = updates true fs os.
  Proof. reflexivity. Qed.

  (** ** The statements of the induction *)
  Definition node_names (n : cnode) : list string := map aname (cn_ins n).
  Definition Pgraph (oe : oenv) (g : cgraph) (vs : list otensor) : Prop := forall ty ce code,
    Forall (well value opset ty) (cg_nodes g) -> Forall (fun o => aname o <> "" /\ output_ok ty o) (cg_outs g) ->
    held_on (fun x => In x (mentions g) /\ x <> "") ty oe ce -> gen_cgraph value opset g = Some code ->
    exists l, ends code ce (l ++ ce) /\ (forall x, In x (map fst l) -> In x (defines g)) /\ Forall2 (held_arg (l ++ ce)) (cg_outs g) vs.
  Definition Pnodes (oe : oenv) (ns : list cnode) (oe' : oenv) : Prop := forall (S : string -> Prop) ty ce code,
    (forall x, In x (flat_map node_names ns) -> x <> "" -> S x) -> Forall (well value opset ty) ns -> held_on S ty oe ce ->
    gen_cnodes value opset ns = Some code ->
    exists l, ends code ce (l ++ ce) /\ (forall x, In x (map fst l) -> In x (flat_map (fun n => map aname (cn_outs n)) ns)) /\ held_on S ty oe' (l ++ ce).
  Definition Pstep (oe : oenv) (n : cnode) (vs : list otensor) : Prop := forall (S : string -> Prop) ty ce code,
    (forall x, In x (node_names n) -> x <> "" -> S x) -> well value opset ty n -> held_on S ty oe ce -> gen_cnode value opset n = Some code ->
    length vs = length (cn_outs n) ->
    exists rs, ends code ce (rev (combine (map aname (cn_outs n)) (map V rs)) ++ ce) /\ all_stand (cn_outs n) rs vs.

  (** A body run in some environment. *)
  Lemma body_runs refs caps g ws vs rs ce code : Pgraph (inside refs ws (cg_ins g) vs) g rs -> well_graph value opset refs caps g ->
    bindable refs caps -> NoDup (names (cg_ins g)) -> Forall2 (held_arg ce) caps ws -> Forall2 (held_arg ce) (cg_ins g) vs ->
    (forall x, In x (names (cg_ins g)) -> ~ In x (defines g)) ->
    gen_cgraph value opset g = Some code ->
    exists l, ends (gen_bindings refs caps (map aname (cg_ins g)) (used_names g) ++ code) ce (l ++ ce) /\
              (forall x, In x (map fst l) -> ~ In x (names (cg_ins g))) /\
              (forall x, In x (map fst l) -> In x refs \/ In x (defines g)) /\
              Forall2 (held_arg (l ++ ce)) (cg_outs g) rs.
  Proof.
    intros Pg W B Nd Hc Hv Df Gc. destruct W as [refs caps g ty Tk Wi Wn Wo].
    destruct (enter refs caps g ws vs ce ty Tk Wi B Nd Hc Hv) as (l0 & A1 & A2 & A3).
    destruct (Pg ty (l0 ++ ce) code Wn Wo A3 Gc) as (l1 & B1 & B2 & B3).
    exists (l1 ++ l0). rewrite <- app_assoc. split; [eapply ends_app; eassumption|]. split; [|split; [|exact B3]].
    - intros x Hx Hf. rewrite map_app, in_app_iff in Hx. destruct Hx as [Hx|Hx]; [exact (Df x Hf (B2 x Hx))|exact (proj1 (A2 x Hx) Hf)].
    - intros x Hx. rewrite map_app, in_app_iff in Hx. destruct Hx as [Hx|Hx]; [right; exact (B2 x Hx)|left; exact (proj2 (A2 x Hx))].
  Qed.

  (** *** Loop *)
  Lemma held_bool e x c : held e x (ScalarNative BoolT) (bool_value c) <-> look e x = Some (V (RNative (EB c))).
  Proof.
    unfold held, bool_value. cbn [fst snd]. split.
    - intros ([t|y|l] & E & _ & _ & H); try contradiction. destruct H as [_ H]. injection H as ->. exact E.
    - intros E. exists (RNative (EB c)). split; [exact E|]. split; [reflexivity|]. split; [|auto]. constructor; [reflexivity|constructor].
  Qed.
  Lemma held_int e x z : held e x (ScalarNative I64) (int_value z) <-> look e x = Some (V (RNative (EI z))) /\ (-9223372036854775808 <= z <= 9223372036854775807)%Z.
  Proof.
    unfold held, int_value. cbn [fst snd]. split.
    - intros ([t|y|l] & E & _ & F & H); try contradiction. destruct H as [_ H]. injection H as ->. split; [exact E|].
      apply Forall_cons_iff in F as [(lo & hi & R & L) _]. cbn in R. injection R as <- <-. exact L.
    - intros [E L]. exists (RNative (EI z)). split; [exact E|]. split; [reflexivity|]. split; [|auto].
      constructor; [|constructor]. exists (-9223372036854775808)%Z, 9223372036854775807%Z. split; [reflexivity|exact L].
  Qed.
  Definition cond_expr (oc : arg) : cexpr := match aty oc with ScalarTensor _ => EScalar (aname oc) | _ => EVar (aname oc) end.
  Definition loop_code (refs : list string) (caps : list arg) (body : cgraph) (fi fc oc : arg) (fvs bouts : list arg) (code : list cstmt) : list cstmt :=
    gen_bindings refs caps (map aname (cg_ins body)) (used_names body) ++ code ++ gen_updates fvs bouts ++
    (if String.eqb (aname fc) (aname oc) then [] else [SSet (aname fc) (cond_expr oc)]) ++ [SIncr (aname fi)].
  Definition Ploop (refs : list string) (ws : list otensor) (body : cgraph) (M : option Z) (given : bool) (i : Z) (c : bool) (vs finals : list otensor) (rows : list (list otensor)) : Prop :=
    forall caps fi fc fvs oc bouts max code e0 F,
    cg_ins body = fi :: fc :: fvs -> cg_outs body = oc :: bouts -> well_graph value opset refs caps body -> bindable refs caps ->
    aty fi = ScalarNative I64 -> aty fc = ScalarNative BoolT -> (aty oc = ScalarNative BoolT \/ aty oc = ScalarTensor BoolT) ->
    NoDup (names (cg_ins body)) -> (forall x, In x (names (cg_ins body)) -> ~ In x (names caps) /\ ~ In x (defines body)) ->
    Forall2 (fun f b => same_type (aty b) (aty f)) fvs bouts -> assignable (names fvs) (names bouts) -> ~ In (aname oc) (names fvs) ->
    (given = false -> aname oc = aname fc /\ c = true) ->
    gen_cgraph value opset body = Some code -> Forall2 (held_arg e0) caps ws ->
    (forall F', map fst F' = map fst F -> eval (F' ++ e0) max = Some (V (RNative (EI (match M with Some z => z | None => 9223372036854775807 end))))) ->
    (forall x, In x (map fst F) -> In x (names (cg_ins body))) ->
    Forall2 (held_arg F) (cg_ins body) (int_value i :: bool_value c :: vs) ->
    exists F', ends [SWhile (aname fc) (aname fi) max (loop_code refs caps body fi fc oc fvs bouts code)] (F ++ e0) (F' ++ e0) /\
               map fst F' = map fst F /\ Forall2 (held_arg F') fvs finals.
  Lemma loop_end refs ws body M given i c vs : another M given i c = false -> Ploop refs ws body M given i c vs vs [].
  Proof.
    intros An caps fi fc fvs oc bouts max code e0 F Ei Eo _ _ Ti Tc _ _ _ _ _ _ Hg _ _ Hm _ Hv. rewrite Ei in Hv.
    inversion Hv as [|? ? ? ? H1 Hv']; subst. inversion Hv' as [|? ? ? ? H2 H3]; subst. clear Hv Hv'.
    unfold held_arg in H1, H2. rewrite Ti in H1. rewrite Tc in H2. apply held_int in H1 as [L1 _]. apply held_bool in H2.
    exists F. split; [|split; [reflexivity|exact H3]]. destruct c.
    - unfold another in An. destruct M as [z|]; [|destruct given; discriminate An].
      eapply ends_while_limit; [apply look_frame, H2|apply look_frame, L1|apply Hm; reflexivity| |apply ends_nil].
      destruct (i <? z)%Z eqn:E; [destruct given; discriminate An|lia].
    - eapply ends_while_stop; [apply look_frame, H2|apply ends_nil].
  Qed.
  Lemma loop_next refs ws body M given i c vs cv c' vs' ss finals rows : another M given i c = true -> (i + 1 <= 9223372036854775807)%Z ->
    Pgraph (inside refs ws (cg_ins body) (int_value i :: bool_value c :: vs)) body (cv :: vs' ++ ss) ->
    tshape (snd cv) = [] -> truth cv = Some c' -> length vs' = length vs ->
    Ploop refs ws body M given (i + 1) c' vs' finals rows -> Ploop refs ws body M given i c vs finals (ss :: rows).
  Proof.
    intros An Li Pg Sc Tr Lv Pl caps fi fc fvs oc bouts max code e0 F Ei Eo W B Ti Tc To Nd Df St As No Hg Gc Hc Hm HF Hv.
    assert (Fn : forall x, In x (names (cg_ins body)) -> x = aname fi \/ x = aname fc \/ In x (names fvs)) by (rewrite Ei; cbn; intuition congruence).
    assert (HcF : Forall2 (held_arg (F ++ e0)) caps ws).
    { eapply F2_impl; [|exact Hc]. intros a t Ha H. apply held_past; [|exact H]. intros K. apply (proj1 (Df _ (HF _ K))). apply in_map, Ha. }
    destruct (body_runs refs caps body ws _ _ (F ++ e0) code Pg W B Nd HcF) as (l & R1 & R2 & _ & R4).
    { eapply F2_impl; [|exact Hv]. intros a t _ H. apply held_frame, H. }
    { intros x Hx. apply (Df x Hx). }
    { exact Gc. }
    pose proof Hv as Hv0. rewrite Ei in Hv. inversion Hv as [|? ? ? ? H1 Hv']; subst. inversion Hv' as [|? ? ? ? H2 H3]; subst. clear Hv'.
    unfold held_arg in H1, H2. rewrite Ti in H1. rewrite Tc in H2. apply held_int in H1 as [L1 L1']. apply held_bool in H2.
    rewrite Eo in R4. inversion R4 as [|? ? ? ? O1 O2]; subst. clear R4.
    assert (Ls : ss = []). { pose proof (F2_length _ _ _ O2) as A. pose proof (F2_length _ _ _ St) as A'. pose proof (F2_length _ _ _ H3) as A''. rewrite app_length in A. destruct ss; [reflexivity|cbn in A; lia]. }
    subst ss. rewrite app_nil_r in O2.
    rewrite Ei in Nd. cbn [names map] in Nd. apply NoDup_cons_iff in Nd as [Ni Nd]. apply NoDup_cons_iff in Nd as [Nc Nd].
    assert (Nic : aname fi <> aname fc) by (intros E; apply Ni; left; symmetry; exact E).
    assert (Iin : forall f, In f (fi :: fc :: fvs) -> In (aname f) (names (cg_ins body))) by (intros f Hf; rewrite Ei; apply in_map, Hf).
    (* carried values *)
    destruct (updates_ok true l e0 fvs bouts vs' F St As Nd) as (F1 & U1 & U2 & U3 & U4).
    { intros f Hf. apply In_nth_error in Hf as (k & Hk). assert (Kl : (k < length vs)%nat). { rewrite <- (F2_length _ _ _ H3). apply nth_error_Some. congruence. }
      apply nth_error_Some in Kl. destruct (nth_error vs k) as [t|] eqn:Et; [|congruence]. exists t. exact (F2_nth _ _ _ H3 _ _ _ Hk Et). }
    { intros x Hx K. apply (R2 _ K). rewrite Ei. right. right. exact Hx. }
    { exact O2. }
    rewrite <- gen_updates_eq in U1.
    (* the condition *)
    assert (Lo : look (l ++ F1 ++ e0) (aname oc) = look (l ++ F ++ e0) (aname oc)) by (rewrite !look_app, U4 by exact No; reflexivity).
    assert (Cv : cv = (BoolT, mkT [] [EB c'])).
    { destruct cv as [d [s x]]. cbn in Sc. subst s. cbn in Tr. destruct d; try discriminate Tr. destruct x as [|[z|b|y] [|? ?]]; try discriminate Tr. injection Tr as <-. reflexivity. }
    subst cv. clear Sc Tr.
    assert (Fcl : ~ In (aname fc) (map fst l)) by (intros K; apply (R2 _ K), Iin; right; left; reflexivity).
    assert (Fil : ~ In (aname fi) (map fst l)) by (intros K; apply (R2 _ K), Iin; left; reflexivity).
    assert (Same : aname oc = aname fc -> look F (aname fc) = Some (V (RNative (EB c')))).
    { intros E. assert (Ty : aty oc = ScalarNative BoolT).
      { destruct W as [refs caps body ty Wt Wi Wn Wo]. rewrite Eo in Wo. apply Forall_cons_iff in Wo as [[_ Wo] _]. rewrite Ei in Wi.
        apply Forall_cons_iff in Wi as [_ Wi]. apply Forall_cons_iff in Wi as [Wc _]. unfold output_ok in Wo, Wc. rewrite Wo, E, <- Wc. exact Tc. }
      unfold held_arg in O1. rewrite Ty in O1. apply held_bool in O1. rewrite E, look_past, (look_frame _ _ _ _ H2) in O1 by exact Fcl. rewrite H2. exact O1. }
    assert (Cd : exists F2, ends (if String.eqb (aname fc) (aname oc) then [] else [SSet (aname fc) (cond_expr oc)]) (l ++ F1 ++ e0) (l ++ F2 ++ e0) /\
                 map fst F2 = map fst F1 /\ (forall y, look F2 y = if String.eqb y (aname fc) then Some (V (RNative (EB c'))) else look F1 y)).
    { destruct (String.eqb_spec (aname fc) (aname oc)) as [E|Hne].
      - exists F1. split; [apply ends_nil|]. split; [reflexivity|]. intros y. destruct (String.eqb_spec y (aname fc)) as [->|]; [|reflexivity].
        rewrite U4 by exact Nc. apply Same. symmetry. exact E.
      - destruct (assign_in (aname fc) (V (RNative (EB c'))) F1 (V (RNative (EB c)))) as (F2 & G1 & G2 & G3); [rewrite U4 by exact Nc; exact H2|reflexivity|].
        exists F2. split; [|split; assumption]. apply ends_one. cbn [simple].
        assert (Ev : eval (l ++ F1 ++ e0) (cond_expr oc) = Some (V (RNative (EB c')))).
        { unfold cond_expr. destruct O1 as (r & Er & Sr). rewrite <- Lo in Er. destruct To as [To|To]; rewrite To in Sr |- *.
          - cbn [eval]. rewrite Er. destruct r as [t|x|t]; try (destruct Sr as (_ & _ & []); fail). destruct Sr as (_ & _ & _ & Sr). cbn in Sr. congruence.
          - cbn [eval]. unfold tens, vars. rewrite Er. destruct r as [t|x|t]; try (destruct Sr as (_ & _ & []); fail). destruct Sr as (_ & _ & _ & _ & Sr). cbn in Sr. subst t. reflexivity. }
        rewrite Ev. cbn [obind]. apply G1, Fcl. }
    destruct Cd as (F2 & C1 & C2 & C3).
    (* the counter *)
    assert (L2 : look F2 (aname fi) = Some (V (RNative (EI i)))).
    { rewrite C3. destruct (String.eqb_spec (aname fi) (aname fc)); [contradiction|]. rewrite U4; [exact L1|]. intros K. apply Ni. right. exact K. }
    destruct (assign_in (aname fi) (V (RNative (EI (i + 1)))) F2 (V (RNative (EI i))) L2 eq_refl) as (F3 & D1 & D2 & D3).
    assert (Fk : map fst F3 = map fst F) by congruence.
    destruct (Pl caps fi fc fvs oc bouts max code e0 F3 Ei Eo W B Ti Tc To) as (F' & Z1 & Z2 & Z3); try assumption.
    - rewrite Ei. constructor; [exact Ni|]. constructor; assumption.
    - intros G. destruct (Hg G) as [E ->]. split; [exact E|]. pose proof (Same E) as K. rewrite H2 in K. congruence.
    - intros F' HF'. apply Hm. congruence.
    - intros x Hx. apply HF. rewrite <- Fk. exact Hx.
    - rewrite Ei. constructor; [|constructor].
      + unfold held_arg. rewrite Ti. apply held_int. rewrite D3, String.eqb_refl. split; [reflexivity|lia].
      + unfold held_arg. rewrite Tc. apply held_bool. rewrite D3. destruct (String.eqb_spec (aname fc) (aname fi)); [congruence|]. rewrite C3, String.eqb_refl. reflexivity.
      + eapply F2_impl; [|exact U3]. intros f t Hf (r & E & Sr). exists r. split; [|exact Sr]. rewrite D3, C3.
        assert (Hn : In (aname f) (names fvs)) by (apply in_map, Hf).
        destruct (String.eqb_spec (aname f) (aname fi)) as [K|]; [elim Ni; right; rewrite <- K; exact Hn|].
        destruct (String.eqb_spec (aname f) (aname fc)) as [K|]; [elim Nc; rewrite <- K; exact Hn|]. exact E.
    - exists F'. split; [|split; [congruence|exact Z3]].
      assert (Ct : c = true) by (unfold another in An; destruct given; [destruct c; [reflexivity|rewrite andb_false_r in An; discriminate An]|apply Hg; reflexivity]).
      subst c. eapply ends_while_step with (e1 := l ++ F3 ++ e0); [apply look_frame, H2|apply look_frame, L1|apply Hm; reflexivity| | |].
      + unfold another in An. destruct M as [z|]; [|lia]. destruct (i <? z)%Z eqn:E; [lia|discriminate An].
      + unfold loop_code. rewrite app_assoc. eapply ends_app; [exact R1|]. eapply ends_app; [exact U1|]. eapply ends_app; [exact C1|].
        apply ends_one. cbn [simple]. rewrite look_past, (look_frame _ _ _ _ L2) by exact Fil. apply D1, Fil.
      + rewrite leave_app; [exact Z1|]. rewrite <- (map_length fst F3), Fk, map_length. reflexivity.
  Qed.

  (** *** Scan *)
  Lemma axis_nth axes k : Forall (fun a => 0 <= a <= 9223372036854775807)%Z axes -> (0 <= nth k axes 0 <= 9223372036854775807)%Z.
  Proof. intros H. destruct (nth_in_or_default k axes 0%Z) as [Hi|E]; [exact (proj1 (Forall_forall _ _) H _ Hi)|lia]. Qed.
  Lemma axis_small r a : (0 <= a <= 9223372036854775807)%Z -> axis_ok r a = true -> usize a = N.of_nat (position r a) /\ (position r a < r)%nat /\ Z.of_nat (position r a) = a.
  Proof.
    intros Ha Ho. unfold axis_ok in Ho. assert (a < Z.of_nat r)%Z by lia. unfold usize, to_usize, position. rewrite !Z.mod_small by lia. split; [lia|]. split; lia.
  Qed.
  Lemma position_nat r n : (n < r)%nat -> position r (Z.of_nat n) = n.
  Proof. intros H. unfold position. rewrite Z.mod_small by lia. lia. Qed.
  Lemma element_ok ce s T U d x y axis rv t L : held ce s (TensorT T) (d, x) -> tt_dtype U = tt_dtype T -> (tt_rank U + 1 = tt_rank T)%N -> (2 <= tt_rank T)%N ->
    (0 <= axis <= 9223372036854775807)%Z -> axis_ok (length (tshape x)) axis = true -> nth (position (length (tshape x)) axis) (tshape x) 0%N = L ->
    look ce "i" = Some (VUsize t) -> look ce "seq_len" = Some (VUsize L) -> (t < L)%N ->
    element_at (position (length (tshape x)) axis) (if rv : bool then (L - 1 - t)%N else t) x = Some y ->
    eval ce (EElement s (usize axis) rv (tt_rank T - 1)) = Some (V (RTensor y)) /\ stands_for d (TensorT U) (RTensor y) y.
  Proof.
    intros (r & Er & Sr) Hd Hr H2 Ha Ho HL Hi Hs Ht He. destruct r as [x'|z|l]; try (destruct Sr as (_ & _ & []); fail).
    destruct Sr as (W & F & Ex & Td & Tr & Tz). cbn [fst snd] in *. subst x'.
    destruct (axis_small _ _ Ha Ho) as (Ua & Pa & _). set (p := position (length (tshape x)) axis) in *.
    assert (Pp : position (length (tshape x)) (Z.of_nat p) = p) by (apply position_nat; exact Pa).
    set (k := if rv then (L - 1 - t)%N else t) in *. assert (Hk : (k < L)%N) by (unfold k; destruct rv; lia). unfold element_at in He.
    split.
    - cbn [eval]. unfold tens, vars. rewrite Er. cbn [obind]. rewrite Hi, Hs. replace (rv && (L <? t + 1)%N) with false by (destruct rv; lia).
      rewrite Ua. destruct (N.ltb_spec (N.of_nat p) (N.of_nat (length (tshape x)))) as [_|K]; [|lia].
      pose proof (place_ok x _ y (Z.of_nat p) W He (Z.of_N k) eq_refl) as Pl. rewrite Pp in Pl.
      replace (Z.of_N (if rv then L - t - 1 else t)) with (Z.of_N k) by (unfold k; destruct rv; lia).
      unfold one_place in Pl. replace (Z.of_N k =? -1)%Z with false in Pl by lia.
      specialize (Pl ltac:(rewrite HL; lia)). destruct (b_slice _ x) as [w|]; cbn [obind] in Pl |- *; [|discriminate Pl].
      replace (tt_rank T - 1)%N with (N.of_nat (length (tshape x)) - 1)%N by lia. rewrite Pl. reflexivity.
    - pose proof (gather_elems d _ _ _ _ F He) as Fy. pose proof (gather_len _ _ _ _ He) as Ly. cbn [tshape length] in Ly.
      split; [apply (gather_shape x _ y (Z.of_nat p) He)|]. split; [exact Fy|]. split; [reflexivity|]. split; [congruence|]. lia.
  Qed.
  Definition slice_rank (s : arg) : N := match aty s with TensorT t => tt_rank t - 1 | _ => 0 end.
  Definition slice (cfg : scan_cfg) (kse : nat * (arg * arg)) : cstmt :=
    let '(k, (s, e)) := kse in SLet (aname e) (EElement (aname s) (usize (nth k (sc_in_axes cfg) 0%Z)) (Z.eqb (nth k (sc_in_dirs cfg) 0%Z) 1) (slice_rank s)).
  Definition place (cfg : scan_cfg) (L t : N) (kx : nat * otensor) : option otensor :=
    let x := snd kx in let a := position (length (tshape (snd x))) (nth (fst kx) (sc_in_axes cfg) 0%Z) in
    option_map (pair (fst x)) (element_at a (if (nth (fst kx) (sc_in_dirs cfg) 0 =? 1)%Z then (L - 1 - t)%N else t) (snd x)).
  Definition sequence_types (elements seqs : list arg) : Prop :=
    Forall2 (fun f s => exists t u, aty s = TensorT t /\ aty f = TensorT u /\ tt_dtype u = tt_dtype t /\ (tt_rank u + 1 = tt_rank t)%N) elements seqs /\
    Forall (fun s => exists t, aty s = TensorT t /\ (2 <= tt_rank t)%N) seqs.
  Lemma slices_ok cfg L t : forall seqs elements xs es s0 ce, sequence_types elements seqs -> Forall2 (held_arg ce) seqs xs ->
    mapo (place cfg L t) (combine (seq s0 (length xs)) xs) = Some es ->
    look ce "i" = Some (VUsize t) -> look ce "seq_len" = Some (VUsize L) -> (t < L)%N -> NoDup (names elements) ->
    (forall x, In x (names elements) -> ~ In x (names seqs) /\ x <> "i" /\ x <> "seq_len") ->
    (forall k x, nth_error xs k = Some x -> let a := position (length (tshape (snd x))) (nth (s0 + k) (sc_in_axes cfg) 0%Z) in
         axis_ok (length (tshape (snd x))) (nth (s0 + k) (sc_in_axes cfg) 0%Z) = true /\ nth a (tshape (snd x)) 0%N = L) ->
    Forall (fun a => 0 <= a <= 9223372036854775807)%Z (sc_in_axes cfg) ->
    exists l, ends (map (slice cfg) (combine (seq s0 (length seqs)) (combine seqs elements))) ce (l ++ ce) /\ (forall x, In x (map fst l) -> In x (names elements)) /\
              Forall2 (held_arg (l ++ ce)) elements es.
  Proof.
    induction seqs as [|s seqs IH]; intros elements xs es s0 ce [Ty Rk] Hs M Hi Hl Ht Nd Dj Ax Ap.
    { inversion Ty; subst. inversion Hs; subst. cbn in M. injection M as <-. exists []. split; [apply ends_nil|]. split; [cbn; tauto|constructor]. }
    inversion Ty as [|e ? elements' ? T1 T2]; subst. inversion Hs as [|? x ? xs' H1 H2]; subst. clear Ty Hs. rename elements' into elements, xs' into xs.
    apply Forall_cons_iff in Rk as [(T & ET & Rk) Rks]. destruct T1 as (T' & U & ET' & EU & Ud & Ur). rewrite ET in ET'. injection ET' as <-.
    cbn [length seq combine mapo] in M. destruct (place cfg L t (s0, x)) as [y|] eqn:Ey; [|discriminate M]. destruct (mapo _ (combine _ xs)) as [ys|] eqn:Eys; [|discriminate M]. injection M as <-.
    unfold place in Ey. cbn [fst snd] in Ey. destruct (element_at _ _ (snd x)) as [w|] eqn:Ew; [|discriminate Ey]. cbn in Ey. injection Ey as <-.
    destruct (Ax 0%nat x eq_refl) as [Ao AL]. rewrite Nat.add_0_r in Ao, AL.
    unfold held_arg in H1. rewrite ET in H1. destruct x as [d x]. cbn [fst snd] in *.
    destruct (element_ok ce (aname s) T U d x w _ (nth s0 (sc_in_dirs cfg) 0 =? 1)%Z t L H1 Ud Ur Rk (axis_nth _ s0 Ap) Ao AL Hi Hl Ht Ew) as [Ev Sv].
    cbn [names map] in Nd. apply NoDup_cons_iff in Nd as [Ne Nd]. destruct (Dj (aname e) (or_introl eq_refl)) as (De & Di & Dl).
    destruct (IH elements xs ys (S s0) ((aname e, V (RTensor w)) :: ce)) as (l & R1 & R2 & R3).
    - split; assumption.
    - eapply F2_impl; [|exact H2]. intros a t' Ha (r & E & Sr). exists r. split; [|exact Sr]. cbn [look].
      destruct (String.eqb_spec (aname a) (aname e)) as [K|]; [|exact E]. elim De. right. rewrite <- K. apply in_map, Ha.
    - exact Eys.
    - cbn [look]. destruct (String.eqb_spec "i" (aname e)); [congruence|exact Hi].
    - cbn [look]. destruct (String.eqb_spec "seq_len" (aname e)); [congruence|exact Hl].
    - exact Ht.
    - exact Nd.
    - intros z Hz. destruct (Dj z (or_intror Hz)) as (A & B & C). split; [|auto]. intros K. apply A. right. exact K.
    - intros k z Hz. replace (S s0 + k)%nat with (s0 + S k)%nat by lia. apply (Ax (S k) z Hz).
    - exact Ap.
    - exists (l ++ [(aname e, V (RTensor w))]). rewrite <- app_assoc. split; [|split].
      + cbn [length seq combine map]. eapply ends_simple; [|exact R1]. cbn [slice simple]. unfold slice_rank. rewrite ET, Ev. reflexivity.
      + intros z Hz. rewrite map_app, in_app_iff in Hz. destruct Hz as [Hz|[<-|[]]]; [right; apply R2, Hz|left; reflexivity].
      + constructor; [|exact R3]. unfold held_arg. rewrite EU. cbn [app]. apply held_past; [intros K; apply Ne, R2, K|].
        exists (RTensor w). cbn [look]. rewrite String.eqb_refl. split; [reflexivity|exact Sv].
  Qed.

  Notation coll := (collector "scan_output_collector_").
  Lemma coll_inj j k : coll j = coll k -> j = k.
  Proof. unfold collector. intros H. apply string_app_inj_l, dec_inj in H. lia. Qed.
  Lemma out_inj j k : collector "scan_output_" j = collector "scan_output_" k -> j = k.
  Proof. unfold collector. intros H. apply string_app_inj_l, dec_inj in H. lia. Qed.
  Lemma coll_out j k : coll j <> collector "scan_output_" k.
  Proof.
    unfold collector. intros H. change "scan_output_collector_" with ("scan_output_" ++ "collector_")%string in H. rewrite string_app_assoc in H. apply string_app_inj_l in H.
    pose proof (dec_digits (N.of_nat k)) as D. rewrite <- H in D. cbn in D. discriminate D.
  Qed.
  Lemma coll_scan j : scan_name (coll j).
  Proof. right. right. exists ("collector_" ++ dec (N.of_nat j))%string. reflexivity. Qed.
  Lemma out_scan j : scan_name (collector "scan_output_" j).
  Proof. right. right. exists (dec (N.of_nat j)). reflexivity. Qed.
  Definition push (ko : nat * arg) : cstmt := SPush (coll (fst ko)) (aname (snd ko)).
  Lemma pushes_ok l e0 : forall scouts ss s F, Forall2 (held_arg (l ++ F ++ e0)) scouts ss ->
    (forall k, (k < length scouts)%nat -> exists acc, look F (coll (s + k)) = Some (VVec acc)) ->
    (forall k, ~ In (coll k) (map fst l)) -> (forall o, In o scouts -> ~ scan_name (aname o)) ->
    exists F', ends (map push (combine (seq s (length scouts)) scouts)) (l ++ F ++ e0) (l ++ F' ++ e0) /\ map fst F' = map fst F /\
      (forall k o t acc, nth_error scouts k = Some o -> nth_error ss k = Some t -> look F (coll (s + k)) = Some (VVec acc) ->
         exists r, look F' (coll (s + k)) = Some (VVec (acc ++ [r])) /\ stands_for (fst t) (aty o) r (snd t)) /\
      (forall y, (forall k, (s <= k)%nat -> y <> coll k) -> look F' y = look F y).
  Proof.
    induction scouts as [|o scouts IH]; intros ss s F Ho Hk Hl Hn.
    { exists F. split; [apply ends_nil|]. split; [reflexivity|]. split; [|reflexivity]. intros [|k] ? ? ? E; discriminate E. }
    inversion Ho as [|? t ? ss' H1 H2]; subst. clear Ho. rename ss' into ss. destruct H1 as (r & Er & Sr).
    destruct (Hk 0%nat ltac:(cbn; lia)) as (acc & Ea). rewrite Nat.add_0_r in Ea.
    destruct (assign_in (coll s) (VVec (acc ++ [r])) F (VVec acc) Ea eq_refl) as (F1 & G1 & G2 & G3).
    destruct (IH ss (S s) F1) as (F' & R1 & R2 & R3 & R4).
    - eapply F2_impl; [|exact H2]. intros a t' Ha (r' & E & Sr'). exists r'. split; [|exact Sr']. rewrite !look_app, G3 in *.
      destruct (String.eqb_spec (aname a) (coll s)) as [K|]; [|exact E]. elim (Hn a (or_intror Ha)). rewrite K. apply coll_scan.
    - intros k Hk'. rewrite G3. destruct (String.eqb_spec (coll (S s + k)) (coll s)) as [K|]; [apply coll_inj in K; lia|].
      replace (S s + k)%nat with (s + S k)%nat by lia. apply Hk. cbn. lia.
    - exact Hl.
    - intros a Ha. apply Hn. right. exact Ha.
    - exists F'. split; [|split; [congruence|split]].
      + cbn [length seq combine map]. eapply ends_simple; [|exact R1]. cbn [push fst snd simple]. rewrite Er, look_past, (look_frame _ _ _ _ Ea) by apply Hl. apply G1, Hl.
      + intros [|k] o' t' acc' E1 E2 E3; cbn in E1, E2.
        * injection E1 as <-. injection E2 as <-. rewrite Nat.add_0_r in E3 |- *. rewrite Ea in E3. injection E3 as <-. exists r. split; [|exact Sr].
          rewrite R4, G3, String.eqb_refl; [reflexivity|]. intros k Hk' K. apply coll_inj in K. lia.
        * replace (s + S k)%nat with (S s + k)%nat in * by lia. apply (R3 k o' t' acc' E1 E2). rewrite G3.
          destruct (String.eqb_spec (coll (S s + k)) (coll s)) as [K|]; [apply coll_inj in K; lia|exact E3].
      + intros y Hy. rewrite R4, G3 by (intros; apply Hy; lia). destruct (String.eqb_spec y (coll s)) as [K|]; [|reflexivity]. elim (Hy s (le_n s) K).
  Qed.

  Definition scan_body (refs : list string) (caps : list arg) (cfg : scan_cfg) (body : cgraph) (seqs elements states stouts scouts : list arg) (code : list cstmt) : list cstmt :=
    map (slice cfg) (combine (seq 0 (length seqs)) (combine seqs elements)) ++
    gen_bindings refs caps (map aname (cg_ins body)) (used_names body) ++ code ++ updates false states stouts ++
    map push (combine (seq 0 (length scouts)) scouts).
  Definition Pscan (refs : list string) (ws : list otensor) (body : cgraph) (cfg : scan_cfg) (xs : list otensor) (L t : N) (vs finals : list otensor) (rows : list (list otensor)) : Prop :=
    forall caps seqs states elements stouts scouts code e0 F,
    cg_ins body = states ++ elements -> cg_outs body = stouts ++ scouts -> well_graph value opset refs caps body -> bindable refs caps ->
    NoDup (names (cg_ins body)) ->
    (forall x, In x (names (cg_ins body)) -> ~ In x (names (seqs ++ caps)) /\ ~ In x (defines body)) ->
    (forall x, In x (names seqs ++ names caps ++ names (cg_ins body) ++ mentions body ++ defines body ++ refs) -> ~ scan_name x) ->
    Forall2 (fun f b => same_type (aty b) (aty f)) states stouts -> sequence_types elements seqs ->
    assignable (names states) (names stouts) -> (forall x, In x (names states) -> ~ In x (names scouts)) ->
    Forall (fun a => 0 <= a <= 9223372036854775807)%Z (sc_in_axes cfg) ->
    (forall k x, nth_error xs k = Some x -> let a := position (length (tshape (snd x))) (nth k (sc_in_axes cfg) 0%Z) in
         axis_ok (length (tshape (snd x))) (nth k (sc_in_axes cfg) 0%Z) = true /\ nth a (tshape (snd x)) 0%N = L) ->
    gen_cgraph value opset body = Some code -> Forall2 (held_arg e0) caps ws -> Forall2 (held_arg e0) seqs xs ->
    (forall x, In x (map fst F) -> In x (names states) \/ scan_name x) -> look F "seq_len" = Some (VUsize L) ->
    (forall k, (k < length scouts)%nat -> exists acc, look F (coll k) = Some (VVec acc)) ->
    Forall2 (held_arg F) states vs ->
    exists F', ends [SFor "i" t "seq_len" (scan_body refs caps cfg body seqs elements states stouts scouts code)] (F ++ e0) (F' ++ e0) /\
      map fst F' = map fst F /\ Forall2 (held_arg F') states finals /\
      (forall k o acc, nth_error scouts k = Some o -> look F (coll k) = Some (VVec acc) ->
         exists new col, look F' (coll k) = Some (VVec (acc ++ new)) /\ column rows k = Some col /\ Forall2 (fun r t => stands_for (fst t) (aty o) r (snd t)) new col).
  Lemma scan_end refs ws body cfg xs L vs : Pscan refs ws body cfg xs L L vs vs [].
  Proof.
    intros caps seqs states elements stouts scouts code e0 F. intros. exists F. split; [|split; [reflexivity|split; [assumption|]]].
    - eapply ends_for_stop; [apply look_frame; eassumption|lia|apply ends_nil].
    - intros k o acc Ho Ha. exists [], []. rewrite app_nil_r. split; [exact Ha|]. split; [reflexivity|constructor].
  Qed.
  Lemma names_in a l : In a l -> In (aname a) (names l).
  Proof. apply in_map. Qed.
  Lemma scan_next refs ws body cfg xs L t vs es vs' ss finals rows : (t < L)%N -> mapo (place cfg L t) (combine (seq 0 (length xs)) xs) = Some es ->
    Pgraph (inside refs ws (cg_ins body) (vs ++ es)) body (vs' ++ ss) -> length vs' = length vs ->
    Pscan refs ws body cfg xs L (t + 1) vs' finals rows -> Pscan refs ws body cfg xs L t vs finals (ss :: rows).
  Proof.
    intros Ht M Pg Lv Pl caps seqs states elements stouts scouts code e0 F Ei Eo W B Nd Df Sn St Sq As Ns Ap Ax Gc Hc Hx HF Hl Hk Hv.
    assert (SnC : forall a, In a (cg_ins body) -> ~ scan_name (aname a)).
    { intros a Ha. apply Sn. rewrite !in_app_iff. right. right. left. apply names_in, Ha. }
    assert (Out : forall l ts, (forall a, In a l -> In a (seqs ++ caps)) -> Forall2 (held_arg e0) l ts -> Forall2 (held_arg (("i", VUsize t) :: F ++ e0)) l ts).
    { intros l ts Hin H. eapply F2_impl; [|exact H]. intros a u Ha K. pose proof (Hin a Ha) as Ha'.
      assert (Sa : ~ scan_name (aname a)). { apply Sn. rewrite !in_app_iff. apply in_app_iff in Ha'. destruct Ha' as [Ha'|Ha']; [left|right; left]; apply names_in, Ha'. }
      assert (Ei' : ~ In (aname a) (map fst (("i", VUsize t) :: F))).
      { intros [E|E]; [apply Sa; left; symmetry; exact E|]. destruct (HF _ E) as [E'|E']; [|exact (Sa E')]. apply (proj1 (Df (aname a) ltac:(rewrite Ei; unfold names in *; rewrite map_app, in_app_iff; left; exact E'))). apply names_in, Ha'. }
      change (("i", VUsize t) :: F ++ e0) with ((("i", VUsize t) :: F) ++ e0). apply held_past; assumption. }
    assert (NdE : NoDup (names elements)). { rewrite Ei in Nd. unfold names in *. rewrite map_app in Nd. apply (NoDup_app_parts _ _ Nd). }
    assert (NdS : NoDup (names states)). { rewrite Ei in Nd. unfold names in *. rewrite map_app in Nd. apply (NoDup_app_parts _ _ Nd). }
    assert (Dse : forall x, In x (names states) -> ~ In x (names elements)).
    { rewrite Ei in Nd. unfold names in *. rewrite map_app in Nd. clear - Nd. induction (map aname states) as [|y l IH]; [intros x []|]. cbn in Nd. apply NoDup_cons_iff in Nd as [N1 N2].
      intros x [<-|Hx]; [intros K; apply N1, in_or_app; right; exact K|apply IH; assumption]. }
    assert (Fi : look F "i" = None \/ True) by (right; exact I). clear Fi.
    (* slices *)
    destruct (slices_ok cfg L t seqs elements xs es 0 (("i", VUsize t) :: F ++ e0)) as (ls & S1 & S2 & S3); try assumption.
    { apply (Out seqs xs); [intros; apply in_or_app; left; assumption|exact Hx]. }
    { reflexivity. }
    { cbn [look]. change (String.eqb "seq_len" "i") with false. cbv iota. apply look_frame, Hl. }
    { intros x Hin. assert (Hcg : In x (names (cg_ins body))) by (rewrite Ei; unfold names in *; rewrite map_app, in_app_iff; right; exact Hin).
      destruct (Df x Hcg) as [D1 _]. assert (Sx : ~ scan_name x) by (apply Sn; rewrite !in_app_iff; right; right; left; exact Hcg).
      split; [intros K; apply D1; unfold names in *; rewrite map_app, in_app_iff; left; exact K|]. split; intros ->; apply Sx; [left|right; left]; reflexivity. }
    (* the body *)
    set (ce := ls ++ ("i", VUsize t) :: F ++ e0) in *.
    assert (Sti : forall a, In a states -> aname a <> "i") by (intros a Ha E; apply (SnC a ltac:(rewrite Ei; apply in_or_app; left; exact Ha)); left; exact E).
    assert (HvC : Forall2 (held_arg ce) states vs).
    { eapply F2_impl; [|exact Hv]. intros a u Ha (r & E & Sr). exists r. split; [|exact Sr]. unfold ce. rewrite look_past.
      - cbn [look]. destruct (String.eqb_spec (aname a) "i") as [K|]; [elim (Sti a Ha K)|]. apply look_frame, E.
      - intros K. apply (Dse (aname a) (names_in _ _ Ha)), S2, K. }
    destruct (body_runs refs caps body ws (vs ++ es) (vs' ++ ss) ce code Pg W B Nd) as (lb & R1 & R2 & R3 & R4).
    { pose proof (Out caps ws ltac:(intros; apply in_or_app; right; assumption) Hc) as K. eapply F2_impl; [|exact K]. intros a u Ha Hu. unfold ce. apply held_past; [|exact Hu].
      intros Q. apply S2 in Q. apply (proj1 (Df (aname a) ltac:(rewrite Ei; unfold names in *; rewrite map_app, in_app_iff; right; exact Q))). unfold names. rewrite map_app, in_app_iff. right. apply in_map, Ha. }
    { rewrite Ei. apply Forall2_app; assumption. }
    { intros x Hin. apply (Df x Hin). }
    { exact Gc. }
    (* states *)
    set (l := lb ++ ls ++ [("i", VUsize t)]). assert (El : lb ++ ce = l ++ F ++ e0) by (unfold l, ce; rewrite <- !app_assoc; reflexivity).
    rewrite El in R1, R4. rewrite Eo in R4.
    assert (Lst : length stouts = length vs'). { rewrite Lv, <- (F2_length _ _ _ Hv). symmetry. apply (F2_length _ _ _ St). }
    apply Forall2_app_inv_l in R4 as (v1 & v2 & O1 & O2 & Ev).
    assert (E1 : v1 = vs' /\ v2 = ss). { pose proof (F2_length _ _ _ O1) as K. apply app_inj_len; [congruence|symmetry; exact Ev]. }
    destruct E1 as [-> ->].
    assert (Lin : forall x, In x (map fst l) -> In x (map fst lb) \/ In x (names elements) \/ x = "i").
    { intros x Hin. unfold l in Hin. rewrite !map_app, !in_app_iff in Hin. destruct Hin as [Hin|[Hin|[<-|[]]]]; [left; exact Hin|right; left; apply S2, Hin|right; right; reflexivity]. }
    destruct (updates_ok false l e0 states stouts vs' F St As NdS) as (F1 & U1 & U2 & U3 & U4).
    { intros f Hf. apply In_nth_error in Hf as (k & Hkf). assert (Kl : (k < length vs)%nat). { rewrite <- (F2_length _ _ _ Hv). apply nth_error_Some. congruence. }
      apply nth_error_Some in Kl. destruct (nth_error vs k) as [u|] eqn:Eu; [|congruence]. exists u. exact (F2_nth _ _ _ Hv _ _ _ Hkf Eu). }
    { intros x Hin K. apply Lin in K. destruct K as [K|[K|K]].
      - apply (R2 _ K). rewrite Ei. unfold names in *. rewrite map_app, in_app_iff. left. exact Hin.
      - exact (Dse x Hin K).
      - subst x. apply in_map_iff in Hin as (a & Ea & Ha). exact (Sti a Ha Ea). }
    { exact O1. }
    (* scan outputs *)
    assert (Cn : forall k, ~ In (coll k) (map fst l)).
    { intros k K. apply Lin in K. destruct K as [K|[K|K]].
      - apply (Sn (coll k)); [|apply coll_scan]. destruct (R3 _ K) as [K'|K']; rewrite !in_app_iff; [right; right; right; right; right; exact K'|right; right; right; right; left; exact K'].
      - apply (Sn (coll k)); [|apply coll_scan]. rewrite !in_app_iff. right. right. left. rewrite Ei. unfold names in *. rewrite map_app, in_app_iff. right. exact K.
      - discriminate K. }
    assert (Cs : forall k, ~ In (coll k) (names states)).
    { intros k K. apply in_map_iff in K as (a & Ea & Ha). apply (SnC a); [rewrite Ei; apply in_or_app; left; exact Ha|]. rewrite Ea. apply coll_scan. }
    destruct (pushes_ok l e0 scouts ss 0 F1) as (F2 & P1 & P2 & P3 & P4).
    { eapply F2_impl; [|exact O2]. intros a u Ha (r & E & Sr). exists r. split; [|exact Sr]. rewrite !look_app in E |- *. rewrite U4; [exact E|].
      intros K. apply (Ns _ K), names_in, Ha. }
    { intros k Hk'. rewrite U4 by apply Cs. apply Hk, Hk'. }
    { exact Cn. }
    { intros o Ho. apply Sn. rewrite !in_app_iff. right. right. right. left. unfold mentions. rewrite in_app_iff. right. rewrite Eo, map_app, in_app_iff. right. apply in_map, Ho. }
    assert (F2s : forall x, ~ scan_name x -> look F2 x = look F1 x) by (intros x Hs'; apply P4; intros k _ ->; apply Hs', coll_scan).
    assert (Fk : map fst F2 = map fst F) by congruence.
    assert (Lc : length ss = length scouts) by (symmetry; apply (F2_length _ _ _ O2)).
    assert (Row : forall k o, nth_error scouts k = Some o -> exists u, nth_error ss k = Some u).
    { intros k o Ho. assert (Kl : (k < length ss)%nat) by (rewrite Lc; apply nth_error_Some; congruence). apply nth_error_Some in Kl. destruct (nth_error ss k) as [u|]; [eauto|congruence]. }
    destruct (Pl caps seqs states elements stouts scouts code e0 F2 Ei Eo W B Nd Df Sn St Sq As Ns Ap Ax Gc Hc Hx) as (F' & Z1 & Z2 & Z3 & Z4).
    - intros x Hin. apply HF. rewrite <- Fk. exact Hin.
    - rewrite P4; [|intros k _; discriminate]. rewrite U4; [exact Hl|]. intros K. apply in_map_iff in K as (a & Ea & Ha). apply (SnC a); [rewrite Ei; apply in_or_app; left; exact Ha|]. right. left. exact Ea.
    - intros k Hk'. destruct (nth_error scouts k) as [o|] eqn:Ho; [|apply nth_error_None in Ho; lia]. destruct (Row k o Ho) as (u & Hu). destruct (Hk k Hk') as (acc & Ha).
      destruct (P3 k o u acc Ho Hu) as (r & Hr & _); [cbn [Nat.add]; rewrite U4 by apply Cs; exact Ha|]. cbn [Nat.add] in Hr. eauto.
    - eapply F2_impl; [|exact U3]. intros a u Ha (r & E & Sr). exists r. split; [|exact Sr]. rewrite F2s; [exact E|]. apply SnC. rewrite Ei. apply in_or_app. left. exact Ha.
    - exists F'. split; [|split; [congruence|split; [exact Z3|]]].
      + eapply ends_for_step with (e1 := l ++ F2 ++ e0); [apply look_frame; exact Hl|exact Ht| |].
        * unfold scan_body. eapply ends_app; [exact S1|]. fold ce. rewrite app_assoc. eapply ends_app; [exact R1|]. eapply ends_app; [exact U1|exact P1].
        * rewrite leave_app; [exact Z1|]. rewrite <- (map_length fst F2), Fk, map_length. reflexivity.
      + intros k o acc Ho Ha. destruct (Row k o Ho) as (u & Hu).
        destruct (P3 k o u acc Ho Hu) as (r & Hr & Sr); [cbn [Nat.add]; rewrite U4 by apply Cs; exact Ha|]. cbn [Nat.add] in Hr.
        destruct (Z4 k o _ Ho Hr) as (new & col & N1 & N2 & N3). exists (r :: new), (u :: col). split; [|split].
        * rewrite <- app_assoc in N1. exact N1.
        * unfold column in *. cbn [mapo]. rewrite Hu, N2. reflexivity.
        * constructor; assumption.
  Qed.
End Control.
