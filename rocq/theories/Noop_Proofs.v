From Verif Require Import IR_Model IR_Spec IR_Proofs Passes_Model Passes_Spec Passes_Proofs Noop_Model Noop_Spec.

(* ------------------------------------------------------------------ *)
(** * Following chains *)

Definition same_keys (m m' : smap string) : Prop := forall x, sget m x = None <-> sget m' x = None.
Definition descends (rk : string -> nat) (m : smap string) : Prop :=
  forall x y, sget m x = Some y -> rk y < rk x.

Lemma follow_terminal (rk : string -> nat) (keys : list string) m : descends rk m ->
  (forall x, sget m x <> None -> In x keys) ->
  forall fuel visited current,
  NoDup visited -> (forall x, In x visited -> In x keys /\ rk current < rk x) ->
  length keys < fuel + length visited ->
  sget m (follow fuel m visited current) = None /\ rk (follow fuel m visited current) <= rk current.
Proof.
  intros Hd Hk. induction fuel as [|f IH]; intros visited current Hnd Hv Hl; cbn.
  - exfalso. assert (length visited <= length keys); [|lia].
    apply NoDup_incl_length; [exact Hnd|]. intros x Hx. apply Hv. exact Hx.
  - destruct (sget m current) as [next|] eqn:E; [|split; [exact E|lia]].
    pose proof (Hd _ _ E) as Hr.
    destruct (mem_str next visited) eqn:Em.
    + exfalso. apply mem_str_In in Em. destruct (Hv _ Em). lia.
    + destruct (IH (current :: visited) next) as [H1 H2].
      * constructor; [|exact Hnd]. intros Hc. destruct (Hv _ Hc). lia.
      * intros x [<-|Hx]; [split; [apply Hk; congruence|exact Hr]|]. destruct (Hv _ Hx). split; [assumption|lia].
      * cbn. lia.
      * split; [exact H1|lia].
Qed.

Lemma follow_respects {V} m (e : string -> option V) : respects m e ->
  forall fuel visited current v, e current = Some v -> e (follow fuel m visited current) = Some v.
Proof.
  intros Hr. induction fuel as [|f IH]; intros visited current v H; cbn; [exact H|].
  destruct (sget m current) as [next|] eqn:E; [|exact H].
  destruct (mem_str next visited); [exact H|].
  apply IH. eapply Hr; eassumption.
Qed.

Section Resolve.
  Variable rk : string -> nat.
  Variable rewire : smap string.
  Variable order : list (string * string).
  Hypothesis Hd : descends rk rewire.
  Hypothesis Hord : forall k v, In (k, v) order <-> sget rewire k = Some v.

  Let step (m : smap string) (kv : string * string) :=
    sput m (fst kv) (follow (S (length order)) m [fst kv] (snd kv)).

  Lemma resolve_inv : forall l m,
    (forall kv, In kv l -> In kv order) ->
    descends rk m -> same_keys m rewire ->
    let m' := fold_left step l m in
    descends rk m' /\ same_keys m' rewire /\
    (forall x y, sget m' x = Some y -> (exists z, In (x, z) l) -> sget rewire y = None) /\
    (forall x, (forall z, ~ In (x, z) l) -> sget m' x = sget m x).
  Proof.
    induction l as [|[k v] l IH]; intros m Hin Hdm Hsk; cbn [fold_left].
    - cbv zeta. split; [exact Hdm|]. split; [exact Hsk|]. split; [|reflexivity].
      intros x y _ [z []].
    - assert (Hkv : sget rewire k = Some v) by (apply Hord; apply Hin; left; reflexivity).
      pose proof (Hd _ _ Hkv) as Hrk.
      assert (Hf : sget m (follow (S (length order)) m [k] v) = None /\
                   rk (follow (S (length order)) m [k] v) <= rk v).
      { apply (follow_terminal rk (map fst order) m Hdm).
        - intros x Hx. destruct (sget rewire x) as [y|] eqn:Er.
          + apply (in_map fst order (x, y)). apply Hord. exact Er.
          + exfalso. apply Hx. apply Hsk. exact Er.
        - constructor; [intros []|constructor].
        - intros x [<-|[]]. split; [|exact Hrk]. apply (in_map fst order (k, v)). apply Hord. exact Hkv.
        - rewrite map_length. cbn. lia. }
      destruct Hf as [Hf1 Hf2].
      set (w := follow (S (length order)) m [k] v) in *.
      assert (Hd1 : descends rk (step m (k, v))).
      { intros x y Hxy. unfold step in Hxy. cbn [fst snd] in Hxy. fold w in Hxy. rewrite sget_sput in Hxy.
        destruct (String.eqb_spec k x) as [->|]; [|apply Hdm; exact Hxy].
        injection Hxy as <-. lia. }
      assert (Hs1 : same_keys (step m (k, v)) rewire).
      { intros x. unfold step. cbn [fst snd]. fold w. rewrite sget_sput.
        destruct (String.eqb_spec k x) as [->|]; [|apply Hsk]. rewrite Hkv. split; discriminate. }
      destruct (IH (step m (k, v)) (fun kv H => Hin kv (or_intror H)) Hd1 Hs1) as [I1 [I2 [I3 I4]]].
      split; [exact I1|]. split; [exact I2|]. split.
      + intros x y Hxy [z [Hz|Hz]].
        * injection Hz as <- <-.
          destruct (in_dec string_dec k (map fst l)) as [Hk|Hk].
          -- apply in_map_iff in Hk. destruct Hk as [[k' z'] [Hk' Hz']]. cbn in Hk'. subst k'.
             apply (I3 _ _ Hxy). exists z'. exact Hz'.
          -- rewrite I4 in Hxy.
             ++ unfold step in Hxy. cbn [fst snd] in Hxy. fold w in Hxy. rewrite sget_sput, String.eqb_refl in Hxy.
                injection Hxy as <-. apply Hsk. exact Hf1.
             ++ intros z' Hz'. apply Hk. apply (in_map fst l (k, z')). exact Hz'.
        * apply (I3 _ _ Hxy). exists z. exact Hz.
      + intros x Hx. rewrite I4.
        * unfold step. cbn [fst snd]. rewrite sget_sput.
          destruct (String.eqb_spec k x) as [->|]; [|reflexivity].
          exfalso. apply (Hx v). left. reflexivity.
        * intros z Hz. apply (Hx z). right. exact Hz.
  Qed.

  Lemma resolve_keys x : sget (resolve rewire order) x = None <-> sget rewire x = None.
  Proof. destruct (resolve_inv order rewire (fun _ H => H) Hd) as [_ [H _]]; [intros y; tauto|apply H]. Qed.

  Lemma resolve_target x y : sget (resolve rewire order) x = Some y -> sget rewire y = None.
  Proof.
    intros H. destruct (resolve_inv order rewire (fun _ H => H) Hd) as [_ [Hs [Ht _]]]; [intros z; tauto|].
    apply (Ht x y H). destruct (sget rewire x) as [z|] eqn:E.
    - exists z. apply Hord. exact E.
    - apply resolve_keys in E. congruence.
  Qed.

  Lemma resolve_respects {V} (e : string -> option V) : respects rewire e -> respects (resolve rewire order) e.
  Proof.
    intros Hr. unfold resolve.
    assert (G : forall l m, (forall kv, In kv l -> In kv order) -> respects m e -> respects (fold_left step l m) e).
    { induction l as [|[k v] l IH]; intros m Hin Hm; [exact Hm|]. cbn [fold_left]. apply IH.
      - intros kv H. apply Hin. right; exact H.
      - intros x y u Hxy Hx. unfold step in Hxy. cbn [fst snd] in Hxy. rewrite sget_sput in Hxy.
        destruct (String.eqb_spec k x) as [->|]; [|eapply Hm; eassumption].
        assert (Hy : y = follow (S (length order)) m [x] v) by congruence. rewrite Hy.
        apply follow_respects; [exact Hm|].
        eapply Hr; [|exact Hx]. apply Hord. apply Hin. left; reflexivity. }
    apply G; [tauto|exact Hr].
  Qed.

  Lemma resolve_values (P : string -> Prop) :
    (forall x y, sget rewire x = Some y -> P y) ->
    forall x y, sget (resolve rewire order) x = Some y -> P y.
  Proof.
    intros HP. unfold resolve.
    assert (F : forall m, (forall x y, sget m x = Some y -> P y) -> forall fuel vis c, P c -> P (follow fuel m vis c)).
    { intros m Hm. induction fuel as [|f IH]; intros vis c Hc; cbn; [exact Hc|].
      destruct (sget m c) as [y|] eqn:E; [|exact Hc]. destruct (mem_str y vis); [exact Hc|].
      apply IH. eapply Hm. exact E. }
    assert (G : forall l m, (forall kv, In kv l -> In kv order) -> (forall x y, sget m x = Some y -> P y) ->
      forall x y, sget (fold_left step l m) x = Some y -> P y).
    { induction l as [|[k v] l IH]; intros m Hin Hm; [exact Hm|]. cbn [fold_left]. apply IH.
      - intros kv H. apply Hin. right; exact H.
      - intros x y Hxy. unfold step in Hxy. cbn [fst snd] in Hxy. rewrite sget_sput in Hxy.
        destruct (String.eqb_spec k x) as [->|]; [|eapply Hm; eassumption].
        assert (Hy : y = follow (S (length order)) m [x] v) by congruence. rewrite Hy.
        apply F; [exact Hm|]. eapply HP. apply Hord. apply Hin. left; reflexivity. }
    apply G; [tauto|exact HP].
  Qed.
End Resolve.

(* ------------------------------------------------------------------ *)
(** * The plan *)

Section PlanFacts.
  Variable is_noop : rnode -> bool.

  (** An entry of the plan comes from a no-op. *)
  Definition entry_of (nodes : list (nat * rnode)) (m : output_map) (x y : string) : Prop :=
    exists idx n i is o os, In (idx, n) nodes /\ is_noop n = true /\
      ninputs n = i :: is /\ noutputs n = o :: os /\ y = aname i /\
      (x = aname o \/ original_name m idx = Some x /\ x <> aname o).

  Lemma plan_fold_spec m : forall nodes acc rw rem,
    plan_fold is_noop m acc nodes = Some (rw, rem) ->
    (forall x y, sget rw x = Some y -> sget (fst acc) x = Some y \/ entry_of nodes m x y) /\
    (forall x, sget (fst acc) x <> None -> sget rw x <> None) /\
    (forall idx, In idx rem <-> In idx (snd acc) \/
        exists n, In (idx, n) nodes /\ is_noop n = true /\ ninputs n <> []) /\
    (forall idx n o os, In (idx, n) nodes -> is_noop n = true -> ninputs n <> [] -> noutputs n = o :: os ->
        sget rw (aname o) <> None).
  Proof.
    induction nodes as [|[idx n] l IH]; intros acc rw rem H; cbn in H.
    - injection H as ->. cbn. split; [auto|]. split; [auto|]. split; [|intros idx n o os []].
      intros idx. split; [auto|]. intros [H|[n [[] _]]]. exact H.
    - assert (Hskip : forall acc', acc' = acc -> (is_noop n = true -> ninputs n = []) ->
        plan_fold is_noop m acc' l = Some (rw, rem) ->
        (forall x y, sget rw x = Some y -> sget (fst acc) x = Some y \/ entry_of ((idx, n) :: l) m x y) /\
        (forall x, sget (fst acc) x <> None -> sget rw x <> None) /\
        (forall idx0, In idx0 rem <-> In idx0 (snd acc) \/
            exists n0, In (idx0, n0) ((idx, n) :: l) /\ is_noop n0 = true /\ ninputs n0 <> []) /\
        (forall idx0 n0 o os, In (idx0, n0) ((idx, n) :: l) -> is_noop n0 = true -> ninputs n0 <> [] ->
            noutputs n0 = o :: os -> sget rw (aname o) <> None)).
      { intros acc' -> Hs H'. destruct (IH _ _ _ H') as [I1 [I2 [I3 I4]]]. repeat split.
        - intros x y Hxy. destruct (I1 _ _ Hxy) as [I|[i0 [n0 [i [is [o [os [Hi R]]]]]]]]; [left; exact I|].
          right. exists i0, n0, i, is, o, os. split; [right; exact Hi|exact R].
        - exact I2.
        - intros Hi. apply I3 in Hi. destruct Hi as [Hi|[n0 [Hi R]]]; [left; exact Hi|].
          right. exists n0. split; [right; exact Hi|exact R].
        - intros [Hi|[n0 [[Hi|Hi] [R1 R2]]]]; apply I3.
          + left; exact Hi.
          + injection Hi as <- <-. exfalso. apply R2. apply Hs. exact R1.
          + right. exists n0. split; [exact Hi|split; assumption].
        - intros i0 n0 o os [Hi|Hi] R1 R2 Ho.
          + injection Hi as <- <-. exfalso. apply R2. apply Hs. exact R1.
          + eapply I4; eassumption. }
      destruct (is_noop n) eqn:En; [|apply (Hskip acc eq_refl); [discriminate|exact H]].
      destruct (ninputs n) as [|i is] eqn:Ei; [apply (Hskip acc eq_refl); [reflexivity|exact H]|].
      destruct (noutputs n) as [|o os] eqn:Eo; [discriminate|]. clear Hskip.
      set (r1 := sput (fst acc) (aname o) (aname i)) in *.
      set (r2 := match original_name m idx with
                 | Some k => if String.eqb k (aname o) then r1 else sput r1 k (aname i)
                 | None => r1 end) in *.
      assert (Hr2 : forall x y, sget r2 x = Some y -> sget (fst acc) x = Some y \/ entry_of ((idx, n) :: l) m x y).
      { intros x y Hxy.
        assert (H1 : forall x y, sget r1 x = Some y -> sget (fst acc) x = Some y \/ entry_of ((idx, n) :: l) m x y).
        { intros x' y' H1. unfold r1 in H1. rewrite sget_sput in H1.
          destruct (String.eqb_spec (aname o) x') as [<-|]; [|left; exact H1].
          injection H1 as <-. right. exists idx, n, i, is, o, os.
          split; [left; reflexivity|]. repeat split; try assumption. left; reflexivity. }
        unfold r2 in Hxy. destruct (original_name m idx) as [k|] eqn:Ek; [|apply H1; exact Hxy].
        destruct (String.eqb_spec k (aname o)) as [|Hne]; [apply H1; exact Hxy|].
        rewrite sget_sput in Hxy. destruct (String.eqb_spec k x) as [->|]; [|apply H1; exact Hxy].
        injection Hxy as <-. right. exists idx, n, i, is, o, os.
        split; [left; reflexivity|]. repeat split; try assumption. right; split; assumption. }
      assert (Hm1 : forall x, sget (fst acc) x <> None \/ x = aname o -> sget r2 x <> None).
      { intros x Hx.
        assert (H1 : sget r1 x <> None).
        { unfold r1. rewrite sget_sput. destruct (String.eqb_spec (aname o) x) as [|Hne]; [discriminate|].
          destruct Hx as [Hx| ->]; [exact Hx|congruence]. }
        unfold r2. destruct (original_name m idx) as [k|]; [|exact H1].
        destruct (String.eqb k (aname o)); [exact H1|]. rewrite sget_sput.
        destruct (String.eqb k x); [discriminate|exact H1]. }
      destruct (IH _ _ _ H) as [I1 [I2 [I3 I4]]]. cbn [fst snd] in *. repeat split.
      + intros x y Hxy. destruct (I1 _ _ Hxy) as [I|[i0 [n0 [i' [is' [o' [os' [Hi R]]]]]]]]; [apply Hr2; exact I|].
        right. exists i0, n0, i', is', o', os'. split; [right; exact Hi|exact R].
      + intros x Hx. apply I2. apply Hm1. left; exact Hx.
      + intros Hi. apply I3 in Hi. destruct Hi as [[<-|Hi]|[n0 [Hi R]]].
        * right. exists n. split; [left; reflexivity|]. split; [exact En|congruence].
        * left; exact Hi.
        * right. exists n0. split; [right; exact Hi|exact R].
      + intros [Hi|[n0 [[Hi|Hi] R]]]; apply I3.
        * left; right; exact Hi.
        * injection Hi as <- <-. left; left; reflexivity.
        * right. exists n0. split; [exact Hi|exact R].
      + intros i0 n0 o' os' [Hi|Hi] R1 R2 Ho.
        * injection Hi as <- <-. apply I2. apply Hm1. right. congruence.
        * eapply I4; eassumption.
  Qed.
End PlanFacts.

(* ------------------------------------------------------------------ *)
(** * Output arguments *)

Lemma output_args_spec : forall nodes x a, sget (output_args nodes) x = Some a ->
  exists n, In n nodes /\ In a (noutputs n) /\ aname a = x.
Proof.
  unfold output_args.
  assert (Hin : forall outs (m0 : smap arg) x a,
    sget (fold_left (fun m o => sput m (aname o) o) outs m0) x = Some a ->
    sget m0 x = Some a \/ (In a outs /\ aname a = x)).
  { induction outs as [|o outs IH]; intros m0 x a H; cbn in H; [left; exact H|].
    apply IH in H. destruct H as [H|[H1 H2]].
    - rewrite sget_sput in H. destruct (String.eqb_spec (aname o) x).
      + injection H as <-. right. split; [left; reflexivity|assumption].
      + left; exact H.
    - right. split; [right; exact H1|exact H2]. }
  assert (G : forall nodes (m0 : smap arg) x a,
    sget (fold_left (fun m n => fold_left (fun m o => sput m (aname o) o) (noutputs n) m) nodes m0) x = Some a ->
    sget m0 x = Some a \/ exists n, In n nodes /\ In a (noutputs n) /\ aname a = x).
  { induction nodes as [|n l IH]; intros m0 x a H; cbn in H; [left; exact H|].
    apply IH in H. destruct H as [H|[m [Hm H]]].
    - apply Hin in H. destruct H as [H|[H1 H2]]; [left; exact H|].
      right. exists n. split; [left; reflexivity|split; assumption].
    - right. exists m. split; [right; exact Hm|exact H]. }
  intros nodes x a H. apply G in H. destruct H as [H|H]; [discriminate|exact H].
Qed.

(* ------------------------------------------------------------------ *)
(** * Running *)

Section NoopRun.
  Context {V : Type}.
  Variable sem : string -> list (string * attr) -> nat -> list (option V) -> option (list V).
  Variable static : N -> option V.
  Notation env := (string -> option V).

  Lemma rewire_arg_eval rm om (e : env) a v :
    respects rm e -> (forall x b, sget om x = Some b -> by_name b) ->
    sget rm EmptyString = None -> (by_name a \/ aname a = EmptyString) ->
    arg_eval static e a = Some v -> arg_eval static e (rewire_argument rm om a) = Some v.
  Proof.
    intros Hr Hom He Ha H. unfold rewire_argument.
    destruct (sget rm (aname a)) as [y|] eqn:Ey; [|exact H].
    destruct Ha as [Ha|Ha]; [|rewrite Ha in Ey; congruence].
    assert (Hv : exists u, v = Some u /\ e (aname a) = Some u).
    { unfold arg_eval in H. destruct Ha as [Ha|Ha]; rewrite Ha in H;
        (destruct (e (aname a)) as [u|]; cbn in H; [|discriminate]; exists u; split; congruence). }
    destruct Hv as [u [-> Hu]]. pose proof (Hr _ _ _ Ey Hu) as Hy.
    assert (Hb : forall t s, s = VConstant \/ s = VDynamic -> arg_eval static e (mkArg y t s) = Some (Some u)).
    { intros t s [-> | ->]; cbn; rewrite Hy; reflexivity. }
    destruct (sget om y) as [b|] eqn:Eb; apply Hb; [exact (Hom _ _ Eb)|exact Ha].
  Qed.

  Lemma rewire_args_eval rm om (e : env) :
    respects rm e -> (forall x b, sget om x = Some b -> by_name b) ->
    sget rm EmptyString = None -> forall l vs,
    (forall a, In a l -> by_name a \/ aname a = EmptyString) ->
    args_eval static e l = Some vs -> args_eval static e (map (rewire_argument rm om) l) = Some vs.
  Proof.
    intros Hr Hom He. induction l as [|a l IH]; intros vs Ha H; cbn in *; [exact H|].
    destruct (arg_eval static e a) as [v|] eqn:Ea; [|discriminate].
    destruct (args_eval static e l) as [vs'|] eqn:El; [|discriminate].
    rewrite (rewire_arg_eval rm om e a v Hr Hom He (Ha a (or_introl eq_refl)) Ea).
    rewrite (IH _ (fun b Hb => Ha b (or_intror Hb)) eq_refl). exact H.
  Qed.

  Lemma rewire_run rm om (e0 : env) :
    (forall x b, sget om x = Some b -> by_name b) -> sget rm EmptyString = None ->
    forall s p (e ef : env),
    (forall n a, In n s -> In a (ninputs n) -> by_name a \/ aname a = EmptyString) ->
    run sem static e0 p = Some e ->
    (forall p' s' e', p ++ s = p' ++ s' -> run sem static e0 p' = Some e' -> respects rm e') ->
    run sem static e s = Some ef ->
    run sem static e (map (rewire_node rm om) s) = Some ef.
  Proof.
    intros Hom He. induction s as [|n s IH]; intros p e ef Ha Hp Hr H; [exact H|]. cbn in *.
    destruct (node_eval sem static e n) as [e1|] eqn:E; [|discriminate].
    assert (E' : node_eval sem static e (rewire_node rm om n) = Some e1).
    { unfold node_eval in *. cbn.
      destruct (args_eval static e (ninputs n)) as [vs|] eqn:Ea; [|discriminate].
      rewrite (rewire_args_eval rm om e (Hr p (n :: s) e eq_refl Hp) Hom He _ _
                 (fun a Hin => Ha n a (or_introl eq_refl) Hin) Ea). exact E. }
    rewrite E'. apply (IH (p ++ [n])).
    - intros m a Hm. apply Ha. right; exact Hm.
    - rewrite run_app, Hp. cbn. rewrite E. reflexivity.
    - intros p' s' e' Heq. apply Hr with (s' := s'). rewrite <- Heq, <- app_assoc. reflexivity.
    - exact H.
  Qed.

  (** Dropping nodes by position. *)
  Lemma run_filter_ix (keep : nat * rnode -> bool) (L : string -> Prop) : forall l (e1 e2 e1' : env),
    (forall ix, In ix l -> keep ix = false -> forall x, In x (out_names (snd ix)) -> ~ L x) ->
    (forall ix i, In ix l -> In i (ninputs (snd ix)) -> L (aname i)) ->
    (forall x, L x -> e1 x = e2 x) ->
    run sem static e1 (map snd l) = Some e1' ->
    exists e2', run sem static e2 (map snd (filter keep l)) = Some e2' /\
      forall x, L x -> e1' x = e2' x.
  Proof.
    induction l as [|[ix n] r IH]; intros e1 e2 e1' Hk Hi He H; cbn [map snd run] in H.
    - exists e2. split; [reflexivity|]. inversion H; subst. exact He.
    - destruct (node_eval sem static e1 n) as [e1n|] eqn:En; [|discriminate].
      cbn [filter]. destruct (keep (ix, n)) eqn:Kn.
      + unfold node_eval in En.
        destruct (args_eval static e1 (ninputs n)) as [vs|] eqn:Ea; [|discriminate].
        destruct (sem (ntype n) (nattrs n) (length (noutputs n)) vs) as [outs|] eqn:Es; [|discriminate].
        destruct (bind_ext _ _ _ e2 _ En) as [e2n [Hb Hy]].
        assert (Ea2 : args_eval static e2 (ninputs n) = Some vs).
        { rewrite <- Ea. apply args_eval_agree. intros a Ha. symmetry. apply He.
          eapply (Hi (ix, n)); [left; reflexivity|exact Ha]. }
        cbn [map snd run]. unfold node_eval. rewrite Ea2, Es, Hb.
        eapply IH; [| | |exact H].
        * intros m Hm. apply Hk. right; exact Hm.
        * intros m i Hm. apply Hi. right; exact Hm.
        * intros x Hx. apply Hy. right. apply He; exact Hx.
      + eapply IH; [| | |exact H].
        * intros m Hm. apply Hk. right; exact Hm.
        * intros m i Hm. apply Hi. right; exact Hm.
        * intros x Hx. rewrite <- He by exact Hx. eapply node_eval_other; [exact En|].
          intros Hin. eapply (Hk (ix, n)); [left; reflexivity|exact Kn|exact Hin|exact Hx].
  Qed.
End NoopRun.

Lemma enumerate_from_map {A B} (f : A -> B) l : forall i,
  enumerate_from i (map f l) = map (fun p => (fst p, f (snd p))) (enumerate_from i l).
Proof. induction l as [|a l IH]; intros i; cbn; [reflexivity|]. rewrite IH. reflexivity. Qed.

Lemma enumerate_snd {A} (l : list A) : map snd (enumerate l) = l.
Proof.
  unfold enumerate. generalize 0. induction l as [|a l IH]; intros i; cbn; [reflexivity|].
  rewrite IH. reflexivity.
Qed.

Lemma producer_unique : forall nodes i j n m x,
  NoDup (flat_map out_names nodes) ->
  nth_error nodes i = Some n -> nth_error nodes j = Some m ->
  In x (out_names n) -> In x (out_names m) -> i = j.
Proof.
  induction nodes as [|a l IH]; intros i j n m x Hnd Hi Hj Hn Hm; [destruct i; discriminate|].
  cbn in Hnd. assert (Hdis : forall y, In y (out_names a) -> In y (flat_map out_names l) -> False).
  { intros y H1 H2. exact (NoDup_app_disj _ _ y Hnd H1 H2). }
  assert (Hr : NoDup (flat_map out_names l)) by (apply NoDup_app_r in Hnd; exact Hnd).
  destruct i as [|i], j as [|j]; cbn in Hi, Hj; [reflexivity| | |].
  - injection Hi as <-. exfalso. apply (Hdis x Hn). apply in_flat_map. exists m.
    split; [eapply nth_error_In; exact Hj|exact Hm].
  - injection Hj as <-. exfalso. apply (Hdis x Hm). apply in_flat_map. exists n.
    split; [eapply nth_error_In; exact Hi|exact Hn].
  - f_equal. eapply IH; eassumption.
Qed.

Lemma original_name_In : forall m idx k, original_name m idx = Some k -> In (k, (idx, 0)) m.
Proof.
  induction m as [|[k0 [ni oi]] m IH]; intros idx k H; cbn in H; [discriminate|].
  destruct (Nat.eqb ni idx && Nat.eqb oi 0)%bool eqn:E.
  - apply andb_prop in E. destruct E as [E1 E2]. apply Nat.eqb_eq in E1, E2. left. congruence.
  - right. apply IH. exact H.
Qed.

Section NoopMain.
  Context {V : Type}.
  Variable sem : string -> list (string * attr) -> nat -> list (option V) -> option (list V).
  Variable static : N -> option V.
  Variable is_noop : rnode -> bool.
  Variable nodes : list rnode.
  Variable outputs : list arg.
  Variable onnx_names : output_map.
  Variable e0 ef : string -> option V.
  Variable rw : smap string.
  Variable removed : list nat.
  Variable order : list (string * string).
  Hypothesis Hssa : ssa e0 nodes.
  Hypothesis Hwn : well_named nodes.
  Hypothesis Hobn : outputs_by_name nodes.
  Hypothesis Hrun : run sem static e0 nodes = Some ef.
  Hypothesis Hcopy : noops_copy is_noop nodes ef.
  Hypothesis Hextra : extra_outputs_unread is_noop nodes outputs.
  Hypothesis Hcap : no_capture is_noop nodes onnx_names ef.
  Hypothesis Hgo : forall g, In g outputs -> ef (aname g) <> None.
  Hypothesis Hplan : plan_noop_elimination is_noop nodes onnx_names = Some (rw, removed).
  Hypothesis Hord : iterates order rw.

  Lemma noop_entry x y : sget rw x = Some y ->
    exists p n s i is o os, nodes = p ++ n :: s /\ is_noop n = true /\
      ninputs n = i :: is /\ noutputs n = o :: os /\ y = aname i /\
      by_name i /\ ef (aname i) = ef (aname o) /\ (x = aname o \/ (ef x = None /\ x <> EmptyString)).
  Proof.
    intros H. destruct (plan_fold_spec is_noop onnx_names _ _ _ _ Hplan) as [P1 _].
    destruct (P1 _ _ H) as [Hd|[idx [n [i [is [o [os [Hin [Hn [Hi [Ho [Hy Hx]]]]]]]]]]]]; [discriminate|].
    apply enumerate_spec in Hin.
    destruct (nth_error_split _ _ Hin) as [p [s [Hsp Hl]]].
    destruct (Hcopy n i is o os (nth_error_In _ _ Hin) Hn Hi Ho) as [Hbn Hef].
    exists p, n, s, i, is, o, os. repeat (split; [assumption|]).
    destruct Hx as [Hx|[Hx Hne]]; [left; exact Hx|]. apply original_name_In in Hx.
    destruct (Hcap _ _ _ Hx Hin Hn) as [Hk [Hh|Hh]]; [|right; split; assumption].
    rewrite Ho in Hh. cbn in Hh. left. congruence.
  Qed.

  Lemma removed_spec idx : In idx removed <->
    exists n, nth_error nodes idx = Some n /\ is_noop n = true /\ ninputs n <> [].
  Proof.
    destruct (plan_fold_spec is_noop onnx_names _ _ _ _ Hplan) as [_ [_ [P3 _]]].
    rewrite P3. cbn. split.
    - intros [[]|[n [H R]]]. exists n. split; [apply enumerate_spec; exact H|exact R].
    - intros [n [H R]]. right. exists n. split; [apply enumerate_spec; exact H|exact R].
  Qed.

  Lemma removed_key n o os : In n nodes -> is_noop n = true -> ninputs n <> [] -> noutputs n = o :: os ->
    sget rw (aname o) <> None.
  Proof.
    intros Hn H1 H2 H3. apply In_nth_error in Hn. destruct Hn as [idx Hn].
    destruct (plan_fold_spec is_noop onnx_names _ _ _ _ Hplan) as [_ [_ [_ P4]]].
    eapply P4; [apply enumerate_spec; exact Hn|eassumption..].
  Qed.

  (** An output is bound at the end. *)
  Lemma output_bound n x : In n nodes -> In x (out_names n) -> ef x <> None.
  Proof.
    intros Hn Hx. pose proof (run_holds sem static nodes e0 ef Hssa Hrun) as Hh.
    rewrite Forall_forall in Hh. destruct (Hh n Hn) as [vs [outs [_ [_ Hb]]]].
    apply (Forall2_in_l _ _ _ _ Hb) in Hx. destruct Hx as [v [_ Hv]]. congruence.
  Qed.

  (** A value that is bound before [s] runs is an input of the graph or an
      output of [p]. *)
  Lemma bound_prefix p s e x v : nodes = p ++ s -> run sem static e0 p = Some e -> e x = Some v ->
    e0 x = Some v \/ exists m, In m p /\ In x (out_names m).
  Proof.
    intros Hsp Hp Hx.
    destruct (in_dec string_dec x (flat_map out_names p)) as [Hin|Hin].
    - right. apply in_flat_map in Hin. exact Hin.
    - left. rewrite <- Hx. symmetry. apply (run_other sem static p e0 e x Hp). exact Hin.
  Qed.

  Lemma prefix_runs p s : nodes = p ++ s -> exists e, run sem static e0 p = Some e /\
    run sem static e s = Some ef /\ (forall x v, e x = Some v -> ef x = Some v).
  Proof.
    intros Hsp. assert (H := Hrun). rewrite Hsp, run_app in H.
    destruct (run sem static e0 p) as [e|] eqn:E; [|discriminate].
    exists e. split; [reflexivity|]. split; [exact H|]. intros x v Hx.
    destruct (bound_prefix p s e x v Hsp E Hx) as [H0|[m [Hm Hxm]]].
    - assert (Hno : ~ In x (flat_map out_names nodes)).
      { intros Hi. destruct Hssa as [_ Hs]. rewrite (Hs x Hi) in H0. discriminate. }
      rewrite (run_other sem static nodes e0 ef x Hrun Hno). exact H0.
    - rewrite <- Hx. apply (run_other sem static s e ef x H). intros Hi.
      destruct Hssa as [Hnd _]. rewrite Hsp in Hnd. change (NoDup (flat_map out_names (p ++ s))) in Hnd.
      rewrite flat_map_app in Hnd. refine (NoDup_app_disj _ _ x Hnd _ Hi).
      apply in_flat_map. exists m. split; assumption.
  Qed.

  (** The first input of a no-op is bound before it runs. *)
  Lemma first_input_bound p n s i is e : nodes = p ++ n :: s -> ninputs n = i :: is -> by_name i ->
    run sem static e0 p = Some e -> e (aname i) <> None.
  Proof.
    intros Hsp Hi Hb Hp. assert (H := Hrun). rewrite Hsp, run_app, Hp in H. cbn in H.
    unfold node_eval in H. rewrite Hi in H. cbn in H.
    unfold arg_eval in H at 1. intros Hn. destruct Hb as [Hb|Hb]; rewrite Hb, Hn in H; discriminate.
  Qed.

  Definition rank (x : string) : nat :=
    match find (fun p => mem_str x (out_names (snd p))) (enumerate nodes) with
    | Some (idx, _) => S idx
    | None => match sget rw x with Some _ => S (length nodes) | None => 0 end
    end.

  Lemma rank_output idx n x : nth_error nodes idx = Some n -> In x (out_names n) -> rank x = S idx.
  Proof.
    intros Hn Hx. unfold rank.
    destruct (find (fun p => mem_str x (out_names (snd p))) (enumerate nodes)) as [[j m]|] eqn:E.
    - apply find_some in E. destruct E as [E1 E2]. apply enumerate_spec in E1. apply mem_str_In in E2. cbn in E2.
      f_equal. destruct Hssa as [Hnd _].
      eapply (producer_unique nodes j idx m n x Hnd); eassumption.
    - exfalso. pose proof (find_none _ _ E (idx, n)) as Hf. cbn in Hf.
      apply enumerate_spec in Hn. specialize (Hf Hn). apply mem_str_In in Hx. congruence.
  Qed.

  Lemma rank_no_output x : (forall n, In n nodes -> ~ In x (out_names n)) ->
    rank x = match sget rw x with Some _ => S (length nodes) | None => 0 end.
  Proof.
    intros H. unfold rank.
    destruct (find (fun p => mem_str x (out_names (snd p))) (enumerate nodes)) as [[j m]|] eqn:E; [|reflexivity].
    apply find_some in E. destruct E as [E1 E2]. apply enumerate_spec in E1. apply mem_str_In in E2. cbn in E2.
    exfalso. apply (H m); [eapply nth_error_In; exact E1|exact E2].
  Qed.

  Lemma rw_descends : descends rank rw.
  Proof.
    intros x y Hxy. destruct (noop_entry x y Hxy) as [p [n [s [i [is [o [os [Hsp [Hn [Hi [Ho [-> [Hb [Heq Hx]]]]]]]]]]]]]].
    destruct (prefix_runs p (n :: s) Hsp) as [e [Hp [Hrest Hmono]]].
    pose proof (first_input_bound p n s i is e Hsp Hi Hb Hp) as Hbd.
    destruct (e (aname i)) as [v|] eqn:Ev; [|congruence].
    assert (Hry : rank (aname i) <= length p).
    { destruct (bound_prefix p _ e _ _ Hsp Hp Ev) as [H0|[m [Hm Hxm]]].
      - rewrite rank_no_output.
        + destruct (sget rw (aname i)) as [z|] eqn:Ez; [|lia]. exfalso.
          destruct (noop_entry _ _ Ez) as [p' [n' [s' [i' [is' [o' [os' [Hsp' [_ [_ [Ho' [_ [_ [_ [Hx'|[Hx' _]]]]]]]]]]]]]]]].
          * destruct Hssa as [_ Hs]. rewrite (Hs (aname i)) in H0; [discriminate|].
            apply in_flat_map. exists n'. split; [rewrite Hsp'; apply in_elt|].
            rewrite Ho', Hx'. left; reflexivity.
          * rewrite (Hmono _ _ Ev) in Hx'. discriminate.
        + intros m Hm Hxm. destruct Hssa as [_ Hs]. rewrite (Hs (aname i)) in H0; [discriminate|].
          apply in_flat_map. exists m. split; assumption.
      - apply In_nth_error in Hm. destruct Hm as [j Hj].
        assert (Hjl : j < length p) by (apply nth_error_Some; congruence).
        rewrite (rank_output j m); [lia| |exact Hxm]. rewrite Hsp, nth_error_app1; assumption. }
    destruct Hx as [->|[Hx _]].
    - assert (Hro : rank (aname o) = S (length p)).
      { apply (rank_output _ n).
        - rewrite Hsp, nth_error_app2, Nat.sub_diag; [reflexivity|lia].
        - unfold out_names. rewrite Ho. left; reflexivity. }
      lia.
    - rewrite (rank_no_output x).
      + rewrite Hxy. rewrite Hsp, app_length. cbn. lia.
      + intros m Hm Hxm. exact (output_bound m x Hm Hxm Hx).
  Qed.

  Lemma rw_respects p s e : nodes = p ++ s -> run sem static e0 p = Some e -> respects rw e.
  Proof.
    intros Hsp Hp x y v Hxy Hx.
    destruct (prefix_runs p s Hsp) as [e' [Hp' [_ Hmono]]]. rewrite Hp in Hp'. injection Hp' as <-.
    destruct (noop_entry x y Hxy) as [p1 [n [s1 [i [is [o [os [Hsp1 [Hn [Hi [Ho [-> [Hb [Heq Hxx]]]]]]]]]]]]]].
    destruct Hxx as [->|[Hxx _]]; [|rewrite (Hmono _ _ Hx) in Hxx; discriminate].
    assert (Hnp : In n p).
    { eapply (bound_output_ran sem static e0 e p s n (aname o) v); [rewrite <- Hsp; exact Hssa|exact Hp| | |exact Hx].
      - rewrite <- Hsp, Hsp1. apply in_elt.
      - unfold out_names. rewrite Ho. left; reflexivity. }
    assert (Hs' := Hssa). rewrite Hsp in Hs'. pose proof (run_holds sem static p e0 e (ssa_app_l e0 p s Hs') Hp) as Hh.
    rewrite Forall_forall in Hh. destruct (Hh n Hnp) as [vs [outs [Ha _]]].
    rewrite Hi in Ha. cbn in Ha. unfold arg_eval in Ha at 1.
    destruct (e (aname i)) as [u|] eqn:Eu.
    - pose proof (Hmono _ _ Eu). pose proof (Hmono _ _ Hx). congruence.
    - exfalso. destruct Hb as [Hb|Hb]; rewrite Hb in Ha; discriminate.
  Qed.

  Lemma rw_empty : sget rw EmptyString = None.
  Proof.
    destruct (sget rw EmptyString) as [y|] eqn:E; [|reflexivity]. exfalso.
    destruct (noop_entry _ _ E) as [p [n [s [i [is [o [os [Hsp [_ [_ [Ho [_ [_ [_ [Hx|[_ Hx]]]]]]]]]]]]]]]]; [|congruence].
    destruct (Hwn n) as [Hw _]; [rewrite Hsp; apply in_elt|].
    apply (Hw o); [rewrite Ho; left; reflexivity|congruence].
  Qed.

  (** A name that removed nodes do not produce. *)
  Definition survives (x : string) : Prop :=
    forall r, In r nodes -> is_noop r = true -> ninputs r <> [] -> ~ In x (out_names r).

  Lemma rewired_survives a :
    (exists n, In n nodes /\ In a (ninputs n)) \/ In a outputs ->
    survives (aname (rewire_argument (resolve rw order) (output_args nodes) a)).
  Proof.
    intros Ha r Hr Hn Hi Hx.
    destruct Hord as [_ Ho].
    pose proof (resolve_keys rank rw order rw_descends Ho) as Hk.
    pose proof (resolve_target rank rw order rw_descends Ho) as Ht.
    pose proof (resolve_values rw order Ho
      (fun y => exists n i, In n nodes /\ In i (ninputs n) /\ aname i = y)) as Hval.
    assert (Hval' : forall x y, sget (resolve rw order) x = Some y ->
              exists n i, In n nodes /\ In i (ninputs n) /\ aname i = y).
    { apply Hval. intros x y Hxy.
      destruct (noop_entry _ _ Hxy) as [p [n [s [i [is [o [os [Hsp [_ [Hi' [_ [Hy _]]]]]]]]]]]].
      exists n, i. split; [rewrite Hsp; apply in_elt|]. split; [rewrite Hi'; left; reflexivity|congruence]. }
    assert (Hnm : exists z, aname (rewire_argument (resolve rw order) (output_args nodes) a) = z /\
              sget rw z = None /\
              ((exists n i, In n nodes /\ In i (ninputs n) /\ aname i = z) \/ (exists g, In g outputs /\ aname g = z))).
    { unfold rewire_argument. destruct (sget (resolve rw order) (aname a)) as [y|] eqn:E.
      - exists y. split; [destruct (sget (output_args nodes) y); reflexivity|].
        split; [eapply Ht; exact E|]. left. eapply Hval'. exact E.
      - exists (aname a). split; [reflexivity|]. split; [apply Hk; exact E|].
        destruct Ha as [[n [H1 H2]]|H1]; [left; exists n, a|right; exists a]; auto. }
    destruct Hnm as [z [Hz [Hz1 Hz2]]]. rewrite Hz in Hx.
    unfold out_names in Hx. destruct (noutputs r) as [|o os] eqn:Eo; [destruct Hx|].
    destruct Hx as [Hx|Hx].
    - pose proof (removed_key r o os Hr Hn Hi Eo). congruence.
    - apply in_map_iff in Hx. destruct Hx as [x [Hx Hxos]].
      destruct (Hextra r o os x Hr Hn Hi Eo Hxos) as [X1 X2].
      destruct Hz2 as [[n [i [H1 [H2 H3]]]]|[g [H1 H2]]].
      + apply (X1 n i H1 H2). congruence.
      + apply (X2 g H1). congruence.
  Qed.

  Lemma noop_main nodes' outputs' :
    apply_noop_elimination nodes outputs rw order removed = (nodes', outputs') ->
    (exists e2, run sem static e0 nodes' = Some e2 /\
       Forall2 (fun o o' => e2 (aname o') = ef (aname o)) outputs outputs') /\
    (forall a, (exists n, In n nodes' /\ In a (ninputs n)) \/ In a outputs' -> survives (aname a)) /\
    map (fun n => (nname n, ntype n, noutputs n, nattrs n)) nodes' =
    map (fun n => (nname n, ntype n, noutputs n, nattrs n))
        (filter (fun n => negb (is_noop n && negb (match ninputs n with [] => true | _ => false end))%bool) nodes).
  Proof.
    intros H. unfold apply_noop_elimination in H.
    pose proof Hord as [_ Ho].
    set (rm := resolve rw order) in *. set (om := output_args nodes) in *.
    assert (Hrem : forall idx n, nth_error nodes idx = Some n ->
      existsb (Nat.eqb idx) removed =
      (is_noop n && negb (match ninputs n with [] => true | _ => false end))%bool).
    { intros idx n Hn. apply eq_true_iff_eq. rewrite existsb_exists. split.
      - intros [j [Hj Hj']]. apply Nat.eqb_eq in Hj'. subst j. apply removed_spec in Hj.
        destruct Hj as [m [Hm [H1 H2]]]. assert (m = n) by congruence. subst m.
        rewrite H1. destruct (ninputs n); [congruence|reflexivity].
      - intros Hb. apply andb_prop in Hb. destruct Hb as [H1 H2]. exists idx. split; [|apply Nat.eqb_refl].
        apply removed_spec. exists n. split; [exact Hn|]. split; [exact H1|].
        intros Hc. rewrite Hc in H2. discriminate. }
    destruct (match removed with [] => true | _ => false end) eqn:Er.
    - (* nothing to remove *)
      destruct removed as [|r0 rs] eqn:Erem; [|discriminate]. injection H as <- <-.
      assert (Hnone : forall n, In n nodes -> (is_noop n && negb (match ninputs n with [] => true | _ => false end))%bool = false).
      { intros n Hn. apply In_nth_error in Hn. destruct Hn as [idx Hn].
        rewrite <- (Hrem idx n Hn). reflexivity. }
      split; [|split].
      + exists ef. split; [exact Hrun|]. clear. induction outputs; constructor; auto.
      + intros a _ r Hr Hn Hi. specialize (Hnone r Hr). rewrite Hn in Hnone.
        destruct (ninputs r); [congruence|discriminate].
      + f_equal. symmetry. clear - Hnone. induction nodes as [|n l IH]; [reflexivity|]. cbn.
        rewrite (Hnone n (or_introl eq_refl)). cbn. f_equal. apply IH. intros m Hm. apply Hnone. right; exact Hm.
    - assert (H' : (map snd (filter (fun ix => negb (existsb (Nat.eqb (fst ix)) removed))
                       (enumerate (map (rewire_node rm om) nodes))), map (rewire_argument rm om) outputs) = (nodes', outputs')).
      { destruct removed; [discriminate|exact H]. }
      clear H. injection H' as Hn' Ho'.
      assert (Hruns : run sem static e0 (map (rewire_node rm om) nodes) = Some ef).
      { apply (rewire_run sem static rm om e0) with (p := []); [| | |reflexivity| |exact Hrun].
        - intros x b Hb. apply output_args_spec in Hb. destruct Hb as [n [H1 [H2 _]]]. exact (Hobn n b H1 H2).
        - apply (resolve_keys rank rw order rw_descends Ho). exact rw_empty.
        - intros n a Hn Ha. destruct (Hwn n Hn) as [_ Hw]. specialize (Hw a Ha).
          unfold by_name. destruct (asrc a); tauto.
        - intros p' s' e' Hsp Hp'. apply (resolve_respects rw order Ho). eapply rw_respects; eassumption. }
      assert (Hin_ix : forall ix, In ix (enumerate (map (rewire_node rm om) nodes)) ->
                exists n, nth_error nodes (fst ix) = Some n /\ snd ix = rewire_node rm om n).
      { intros [k n'] Hin. apply enumerate_spec in Hin. rewrite nth_error_map in Hin. cbn.
        destruct (nth_error nodes k) as [n|]; [|discriminate]. exists n. split; [reflexivity|].
        cbn in Hin. congruence. }
      split; [|split].
      + rewrite <- (enumerate_snd (map (rewire_node rm om) nodes)) in Hruns.
        destruct (run_filter_ix sem static (fun ix => negb (existsb (Nat.eqb (fst ix)) removed)) survives
                    (enumerate (map (rewire_node rm om) nodes)) e0 e0 ef) as [e2 [Hr2 Hx2]].
        * intros ix Hin Hk x Hx Hs. destruct (Hin_ix ix Hin) as [n [Hnn Hsn]].
          apply negb_false_iff in Hk. rewrite (Hrem _ _ Hnn) in Hk. apply andb_prop in Hk. destruct Hk as [K1 K2].
          rewrite Hsn in Hx. refine (Hs n (nth_error_In _ _ Hnn) K1 _ Hx).
          intros Hc. rewrite Hc in K2. discriminate.
        * intros ix i Hin Hi. destruct (Hin_ix ix Hin) as [n [Hnn Hsn]]. rewrite Hsn in Hi. cbn in Hi.
          apply in_map_iff in Hi. destruct Hi as [a [<- Ha]]. apply rewired_survives. left.
          exists n. split; [eapply nth_error_In; exact Hnn|exact Ha].
        * reflexivity.
        * exact Hruns.
        * exists e2. rewrite <- Hn', <- Ho'. split; [exact Hr2|].
          assert (Hg : forall l, (forall g, In g l -> In g outputs) ->
             Forall2 (fun o o' => e2 (aname o') = ef (aname o)) l (map (rewire_argument rm om) l)).
          { induction l as [|g l IH]; intros Hl; [constructor|]. cbn. constructor; [|apply IH; intros x Hx; apply Hl; right; exact Hx].
            assert (Hgin : In g outputs) by (apply Hl; left; reflexivity).
            rewrite <- Hx2 by (apply rewired_survives; right; exact Hgin).
            pose proof (resolve_respects rw order Ho ef (rw_respects nodes [] ef (eq_sym (app_nil_r nodes)) Hrun)) as Hres.
            unfold rewire_argument. destruct (sget rm (aname g)) as [y|] eqn:Ey; [|reflexivity].
            destruct (ef (aname g)) as [v|] eqn:Ev; [|destruct (Hgo g Hgin Ev)].
            rewrite <- (Hres _ _ _ Ey Ev). destruct (sget om y); reflexivity. }
          apply Hg. auto.
      + intros a Ha. rewrite <- Hn', <- Ho' in Ha. destruct Ha as [[n [Hn Ha]]|Ha].
        * apply in_map_iff in Hn. destruct Hn as [ix [<- Hix]]. apply filter_In in Hix. destruct Hix as [Hix _].
          destruct (Hin_ix ix Hix) as [n0 [Hn0 Hs0]]. rewrite Hs0 in Ha. cbn in Ha.
          apply in_map_iff in Ha. destruct Ha as [b [<- Hb]]. apply rewired_survives. left.
          exists n0. split; [eapply nth_error_In; exact Hn0|exact Hb].
        * apply in_map_iff in Ha. destruct Ha as [g [<- Hg]]. apply rewired_survives. right. exact Hg.
      + rewrite <- Hn'. unfold enumerate. rewrite enumerate_from_map.
        assert (G : forall l i, (forall j n, nth_error l j = Some n ->
             existsb (Nat.eqb (i + j)) removed = (is_noop n && negb (match ninputs n with [] => true | _ => false end))%bool) ->
           map (fun n => (nname n, ntype n, noutputs n, nattrs n))
             (map snd (filter (fun ix => negb (existsb (Nat.eqb (fst ix)) removed))
                (map (fun p => (fst p, rewire_node rm om (snd p))) (enumerate_from i l)))) =
           map (fun n => (nname n, ntype n, noutputs n, nattrs n))
             (filter (fun n => negb (is_noop n && negb (match ninputs n with [] => true | _ => false end))%bool) l)).
        { induction l as [|n l IH]; intros i Hl; [reflexivity|]. cbn [enumerate_from map filter fst snd].
          pose proof (Hl 0 n eq_refl) as H0. rewrite Nat.add_0_r in H0. rewrite H0.
          assert (Hl' : forall j m, nth_error l j = Some m ->
             existsb (Nat.eqb (S i + j)) removed = (is_noop m && negb (match ninputs m with [] => true | _ => false end))%bool).
          { intros j m Hj. rewrite <- (Hl (S j) m Hj). f_equal. f_equal. lia. }
          destruct (is_noop n && negb (match ninputs n with [] => true | _ => false end))%bool; cbn [negb].
          - apply IH. exact Hl'.
          - cbn [map snd]. rewrite (IH (S i) Hl'). reflexivity. }
        apply G. intros j n Hj. exact (Hrem j n Hj).
  Qed.
End NoopMain.

(* ------------------------------------------------------------------ *)
(** * Unreferenced constants *)

Lemma counts_by_name a : counts a = true <-> by_name a.
Proof. unfold counts, is_constant, is_dynamic, by_name. destruct (asrc a); cbn; split; intros H; auto; try discriminate; destruct H; discriminate. Qed.

Lemma referenced_spec nodes outputs x : In x (referenced nodes outputs) <-> read_in nodes outputs x.
Proof.
  unfold referenced, read_in. rewrite in_map_iff. split.
  - intros [a [Ha Hin]]. apply filter_In in Hin. destruct Hin as [Hin Hc]. apply counts_by_name in Hc.
    apply in_app_iff in Hin. destruct Hin as [Hin|Hin].
    + apply in_flat_map in Hin. destruct Hin as [n [Hn Hi]]. left. exists n, a. auto.
    + right. exists a. auto.
  - intros [[n [i [Hn [Hi [Hb Hx]]]]]|[g [Hg [Hb Hx]]]].
    + exists i. split; [exact Hx|]. apply filter_In. split; [|apply counts_by_name; exact Hb].
      apply in_app_iff. left. apply in_flat_map. exists n. auto.
    + exists g. split; [exact Hx|]. apply filter_In. split; [|apply counts_by_name; exact Hb].
      apply in_app_iff. right. exact Hg.
Qed.

Lemma constant_outputs_spec nodes :
  NoDup (flat_map out_names nodes) ->
  forall x i, (In (x, i) (constant_outputs nodes) <->
    exists n, nth_error nodes i = Some n /\ ntype n = "Constant"%string /\ In x (out_names n)).
Proof.
  intros _.
  assert (Hin : forall i outs (m0 : smap nat) x j,
    In (x, j) (fold_left (fun m o => sput m (aname o) i) outs m0) <->
    In (x, j) m0 \/ (j = i /\ In x (map aname outs))).
  { intros i. induction outs as [|o outs IH]; intros m0 x j; cbn; [tauto|].
    rewrite IH. unfold sput. cbn. split.
    - intros [[H|H]|H]; [injection H as <- <-; tauto|tauto|tauto].
    - intros [H|[H1 [H|H]]]; [tauto|left; left; congruence|tauto]. }
  assert (G : forall l (m0 : smap nat) x j,
    In (x, j) (fold_left (fun m (ix : nat * rnode) =>
     if String.eqb (ntype (snd ix)) "Constant" then
       fold_left (fun m o => sput m (aname o) (fst ix)) (noutputs (snd ix)) m
     else m) l m0) <->
    In (x, j) m0 \/ exists n, In (j, n) l /\ ntype n = "Constant"%string /\ In x (out_names n)).
  { induction l as [|[i n] l IH]; intros m0 x j; cbn [fold_left fst snd].
    - split; [tauto|]. intros [H|[n [[] _]]]. exact H.
    - rewrite IH. destruct (String.eqb_spec (ntype n) "Constant") as [Ht|Ht].
      + rewrite Hin. split.
        * intros [[H|[-> H]]|[m [Hm R]]]; [tauto| |].
          -- right. exists n. split; [left; reflexivity|]. split; [exact Ht|exact H].
          -- right. exists m. split; [right; exact Hm|exact R].
        * intros [H|[m [[Hm|Hm] [R1 R2]]]]; [tauto| |].
          -- injection Hm as <- <-. left. right. split; [reflexivity|exact R2].
          -- right. exists m. auto.
      + split.
        * intros [H|[m [Hm R]]]; [tauto|]. right. exists m. split; [right; exact Hm|exact R].
        * intros [H|[m [[Hm|Hm] [R1 R2]]]]; [tauto|congruence|]. right. exists m. auto. }
  intros x i. unfold constant_outputs. rewrite G. cbn. split.
  - intros [[]|[n [H R]]]. exists n. split; [apply enumerate_spec; exact H|exact R].
  - intros [n [H R]]. right. exists n. split; [apply enumerate_spec; exact H|exact R].
Qed.

Lemma sget_In {A} (m : smap A) x v : sget m x = Some v -> In (x, v) m.
Proof.
  induction m as [|[k w] m IH]; cbn; [discriminate|]. destruct (String.eqb_spec k x) as [->|].
  - intros H. left. congruence.
  - intros H. right. apply IH. exact H.
Qed.
Lemma In_sget {A} (m : smap A) x v : In (x, v) m -> exists w, sget m x = Some w.
Proof.
  induction m as [|[k w] m IH]; cbn; [tauto|]. destruct (String.eqb_spec k x) as [->|Hne].
  - intros _. exists w. reflexivity.
  - intros [H|H]; [injection H as -> _; congruence|]. apply IH. exact H.
Qed.

(** The predicate by which nodes are kept. *)
Definition kept_constant (nodes : list rnode) (outputs : list arg) (n : rnode) : bool :=
  negb (String.eqb (ntype n) "Constant" &&
        existsb (fun o => negb (mem_str (aname o) (referenced nodes outputs))) (noutputs n)).

Lemma remove_unreferenced_filter nodes outputs :
  NoDup (flat_map out_names nodes) ->
  remove_unreferenced_constants nodes outputs = filter (kept_constant nodes outputs) nodes.
Proof.
  intros Hnd. unfold remove_unreferenced_constants.
  set (cm := constant_outputs nodes).
  set (dead := map snd (filter (fun kv => match sget cm (fst kv) with
                                         | Some i => Nat.eqb i (snd kv)
                                         | None => false
                                         end && negb (mem_str (fst kv) (referenced nodes outputs)))%bool cm)).
  assert (Hdead : forall i n, nth_error nodes i = Some n ->
    negb (existsb (Nat.eqb i) dead) = kept_constant nodes outputs n).
  { intros i n Hn. unfold kept_constant. f_equal. apply eq_true_iff_eq.
    rewrite andb_true_iff, existsb_exists, existsb_exists. split.
    - intros [j [Hj Hij]]. apply Nat.eqb_eq in Hij. subst j. unfold dead in Hj.
      apply in_map_iff in Hj. destruct Hj as [[x j] [Hj Hx]]. cbn in Hj. subst j.
      apply filter_In in Hx. destruct Hx as [Hx Hb]. apply andb_prop in Hb. destruct Hb as [_ Hb]. cbn in Hb.
      apply (constant_outputs_spec nodes Hnd) in Hx. destruct Hx as [m [Hm [Ht Hxm]]].
      assert (m = n) by congruence. subst m. split; [rewrite Ht; reflexivity|].
      unfold out_names in Hxm. apply in_map_iff in Hxm. destruct Hxm as [o [Ho Hin]].
      exists o. split; [exact Hin|]. rewrite Ho. exact Hb.
    - intros [Ht [o [Ho Hb]]]. apply String.eqb_eq in Ht. exists i. split; [|apply Nat.eqb_refl].
      unfold dead. apply in_map_iff. exists (aname o, i). split; [reflexivity|]. apply filter_In.
      assert (Hin : In (aname o, i) cm).
      { apply (constant_outputs_spec nodes Hnd). exists n. split; [exact Hn|]. split; [exact Ht|].
        unfold out_names. apply in_map. exact Ho. }
      split; [exact Hin|]. cbn [fst snd]. apply andb_true_iff. split; [|exact Hb].
      destruct (In_sget cm _ _ Hin) as [j Hj]. rewrite Hj. apply Nat.eqb_eq.
      apply sget_In in Hj. apply (constant_outputs_spec nodes Hnd) in Hj. destruct Hj as [m [Hm [_ Hxm]]].
      eapply (producer_unique nodes j i m n (aname o) Hnd); [exact Hm|exact Hn|exact Hxm|].
      unfold out_names. apply in_map. exact Ho. }
  unfold enumerate.
  assert (G : forall l i, (forall j n, nth_error l j = Some n -> negb (existsb (Nat.eqb (i + j)) dead) = kept_constant nodes outputs n) ->
    map snd (filter (fun ix => negb (existsb (Nat.eqb (fst ix)) dead)) (enumerate_from i l)) =
    filter (kept_constant nodes outputs) l).
  { induction l as [|n l IH]; intros i Hl; [reflexivity|]. cbn [enumerate_from filter fst].
    pose proof (Hl 0 n eq_refl) as H0. rewrite Nat.add_0_r in H0. rewrite H0.
    assert (Hl' : forall j m, nth_error l j = Some m -> negb (existsb (Nat.eqb (S i + j)) dead) = kept_constant nodes outputs m).
    { intros j m Hj. rewrite <- (Hl (S j) m Hj). do 3 f_equal. lia. }
    destruct (kept_constant nodes outputs n); cbn [map snd]; rewrite (IH (S i) Hl'); reflexivity. }
  apply G. intros j n Hj. apply Hdead. exact Hj.
Qed.

Lemma unreferenced_exact nodes outputs :
  NoDup (flat_map out_names nodes) -> constants_have_one_output nodes ->
  exists keep, remove_unreferenced_constants nodes outputs = filter keep nodes /\
    forall n, In n nodes ->
      (keep n = true <-> (ntype n <> "Constant"%string \/ exists o, In o (noutputs n) /\ read_in nodes outputs (aname o))).
Proof.
  intros Hnd H1. exists (kept_constant nodes outputs). split; [apply remove_unreferenced_filter; exact Hnd|].
  intros n Hn. unfold kept_constant. destruct (String.eqb_spec (ntype n) "Constant") as [Ht|Ht].
  - destruct (H1 n Hn Ht) as [o Ho]. rewrite Ho. cbn. rewrite orb_false_r, negb_involutive, mem_str_In, referenced_spec.
    split.
    + intros H. right. exists o. auto.
    + intros [H|[o' [[<-|[]] H]]]; [congruence|exact H].
  - cbn. split; [intros _; left; exact Ht|reflexivity].
Qed.

(** Nothing that is read is removed. *)
Lemma unreferenced_sound nodes outputs x :
  NoDup (flat_map out_names nodes) -> constants_have_one_output nodes ->
  read_in nodes outputs x -> In x (flat_map out_names nodes) ->
  In x (flat_map out_names (remove_unreferenced_constants nodes outputs)).
Proof.
  intros Hnd H1 Hr Hx. destruct (unreferenced_exact nodes outputs Hnd H1) as [keep [-> Hk]].
  apply in_flat_map in Hx. destruct Hx as [n [Hn Hx]]. apply in_flat_map. exists n. split; [|exact Hx].
  apply filter_In. split; [exact Hn|]. apply (Hk n Hn). right.
  unfold out_names in Hx. apply in_map_iff in Hx. destruct Hx as [o [Ho Hin]]. exists o. split; [exact Hin|].
  rewrite Ho. exact Hr.
Qed.

Section UnrefRun.
  Context {V : Type}.
  Variable sem : string -> list (string * attr) -> nat -> list (option V) -> option (list V).
  Variable static : N -> option V.

  Lemma run_filter_named (keep : rnode -> bool) (L : string -> Prop) : forall nodes (e1 e2 e1' : string -> option V),
    (forall n, In n nodes -> keep n = false -> forall x, In x (out_names n) -> ~ L x) ->
    (forall n i, In n nodes -> In i (ninputs n) -> by_name i -> L (aname i)) ->
    (forall x, L x -> e1 x = e2 x) ->
    run sem static e1 nodes = Some e1' ->
    exists e2', run sem static e2 (filter keep nodes) = Some e2' /\ forall x, L x -> e1' x = e2' x.
  Proof.
    induction nodes as [|n r IH]; intros e1 e2 e1' Hk Hi He H; cbn [run] in H.
    - exists e2. split; [reflexivity|]. inversion H; subst. exact He.
    - destruct (node_eval sem static e1 n) as [e1n|] eqn:En; [|discriminate].
      cbn [filter]. destruct (keep n) eqn:Kn.
      + unfold node_eval in En.
        destruct (args_eval static e1 (ninputs n)) as [vs|] eqn:Ea; [|discriminate].
        destruct (sem (ntype n) (nattrs n) (length (noutputs n)) vs) as [outs|] eqn:Es; [|discriminate].
        destruct (bind_ext _ _ _ e2 _ En) as [e2n [Hb Hy]].
        assert (Ea2 : args_eval static e2 (ninputs n) = Some vs).
        { rewrite <- Ea. assert (Hl : forall a, In a (ninputs n) -> arg_eval static e2 a = arg_eval static e1 a).
          { intros a Ha. specialize (Hi n a (or_introl eq_refl) Ha). unfold by_name in Hi. unfold arg_eval.
            destruct (asrc a); try reflexivity; rewrite He by (apply Hi; auto); reflexivity. }
          clear - Hl. induction (ninputs n) as [|a l IHl]; [reflexivity|]. cbn.
          rewrite (Hl a (or_introl eq_refl)), IHl; [reflexivity|]. intros b Hb. apply Hl. right; exact Hb. }
        cbn [run]. unfold node_eval. rewrite Ea2, Es, Hb.
        eapply IH; [| | |exact H].
        * intros m Hm. apply Hk. right; exact Hm.
        * intros m i Hm. apply Hi. right; exact Hm.
        * intros x Hx. apply Hy. right. apply He; exact Hx.
      + eapply IH; [| | |exact H].
        * intros m Hm. apply Hk. right; exact Hm.
        * intros m i Hm. apply Hi. right; exact Hm.
        * intros x Hx. rewrite <- He by exact Hx. eapply node_eval_other; [exact En|].
          intros Hin. eapply (Hk n); [left; reflexivity|exact Kn|exact Hin|exact Hx].
  Qed.

  Lemma unreferenced_run nodes outputs (e e' : string -> option V) :
    NoDup (flat_map out_names nodes) -> constants_have_one_output nodes ->
    run sem static e nodes = Some e' ->
    exists e2, run sem static e (remove_unreferenced_constants nodes outputs) = Some e2 /\
      forall g, In g outputs -> by_name g -> e2 (aname g) = e' (aname g).
  Proof.
    intros Hnd H1 H. destruct (unreferenced_exact nodes outputs Hnd H1) as [keep [-> Hk]].
    destruct (run_filter_named keep (read_in nodes outputs) nodes e e e') as [e2 [H2 Hx]].
    - intros n Hn Hf x Hx Hr. assert (Ht : keep n = true).
      { apply (Hk n Hn). right. unfold out_names in Hx. apply in_map_iff in Hx. destruct Hx as [o [<- Ho]].
        exists o. auto. }
      congruence.
    - intros n i Hn Hi Hb. left. exists n, i. auto.
    - reflexivity.
    - exact H.
    - exists e2. split; [exact H2|]. intros g Hg Hb. symmetry. apply Hx. right. exists g. auto.
  Qed.
End UnrefRun.

(** ** Finished graphs *)

Section GInd.
  Variable P : gnode -> Prop.
  Hypothesis H : forall b k subs, Forall (fun s => Forall P (fst s)) subs -> P (mkG b k subs).
  Fixpoint gnode_ind' (g : gnode) : P g :=
    match g with
    | mkG b k subs =>
        H b k subs ((fix fs (l : list (list gnode * list arg)) : Forall (fun s => Forall P (fst s)) l :=
          match l with
          | [] => Forall_nil _
          | s :: r => Forall_cons s
              ((fix fn (l : list gnode) : Forall P l :=
                 match l with
                 | [] => Forall_nil _
                 | g :: r => Forall_cons g (gnode_ind' g) (fn r)
                 end) (fst s)) (fs r)
          end) subs)
    end.
End GInd.

Definition const_marked (a : arg) : Prop := asrc a = VConstant /\ aname a <> EmptyString.

Lemma const_ref_names_spec l x : In x (const_ref_names l) <-> exists a, In a l /\ const_marked a /\ aname a = x.
Proof.
  unfold const_ref_names, const_marked, is_constant. rewrite in_map_iff. split.
  - intros [a [Ha Hin]]. apply filter_In in Hin. destruct Hin as [Hin Hb]. apply andb_prop in Hb. destruct Hb as [H1 H2].
    exists a. split; [exact Hin|]. split; [|exact Ha]. split; [destruct (asrc a); congruence|].
    apply negb_true_iff in H2. apply String.eqb_neq in H2. exact H2.
  - intros [a [Hin [[H1 H2] Ha]]]. exists a. split; [exact Ha|]. apply filter_In. split; [exact Hin|].
    rewrite H1. apply String.eqb_neq in H2. rewrite H2. reflexivity.
Qed.

Lemma node_const_refs_spec : forall g x, In x (node_const_refs g) <-> greads const_marked g x.
Proof.
  induction g as [b k subs IH] using gnode_ind'. intros x. cbn [node_const_refs].
  rewrite in_app_iff, const_ref_names_spec, in_flat_map. rewrite Forall_forall in IH. split.
  - intros [[a [Ha [Hm <-]]]|[[ns os] [Hs Hx]]].
    + apply greads_input; assumption.
    + cbn [fst snd] in Hx. apply in_app_iff in Hx. destruct Hx as [Hx|Hx].
      * apply in_flat_map in Hx. destruct Hx as [g [Hg Hx]].
        specialize (IH _ Hs). rewrite Forall_forall in IH. eapply greads_sub; [exact Hs|exact Hg|].
        apply IH; assumption.
      * apply const_ref_names_spec in Hx. destruct Hx as [a [Ha [Hm <-]]]. eapply greads_subout; eassumption.
  - intros H. inversion H as [b' k' s' i Hi Hm|b' k' s' ns os g y Hs Hg Hr|b' k' s' ns os o Hs Ho Hm]; subst.
    + left. exists i. auto.
    + right. exists (ns, os). split; [exact Hs|]. cbn [fst snd]. apply in_app_iff. left.
      apply in_flat_map. exists g. split; [exact Hg|].
      specialize (IH _ Hs). rewrite Forall_forall in IH. apply IH; assumption.
    + right. exists (ns, os). split; [exact Hs|]. cbn [fst snd]. apply in_app_iff. right.
      apply const_ref_names_spec. exists o. auto.
Qed.

Lemma collect_spec nodes outputs x :
  In x (collect_constant_refs nodes outputs) <-> graph_reads const_marked nodes outputs x.
Proof.
  unfold collect_constant_refs, graph_reads. rewrite in_app_iff, in_flat_map, const_ref_names_spec. split.
  - intros [[g [Hg Hx]]|H]; [left|right; exact H]. exists g. split; [exact Hg|]. apply node_const_refs_spec. exact Hx.
  - intros [[g [Hg Hx]]|H]; [left|right; exact H]. exists g. split; [exact Hg|]. apply node_const_refs_spec. exact Hx.
Qed.

Lemma dead_constants_exact nodes outputs :
  (forall g, In g nodes -> ntype (gbase g) = "Constant"%string -> exists o, noutputs (gbase g) = [o]) ->
  exists keep, eliminate_dead_constants nodes outputs = filter keep nodes /\
    forall g, In g nodes ->
      (keep g = true <-> (ntype (gbase g) <> "Constant"%string \/
        exists o, In o (noutputs (gbase g)) /\
          graph_reads (fun a => asrc a = VConstant /\ aname a <> EmptyString) nodes outputs (aname o))).
Proof.
  intros H1. eexists. split; [reflexivity|]. intros g Hg.
  cbv beta. destruct (String.eqb_spec (ntype (gbase g)) "Constant") as [Ht|Ht].
  - destruct (H1 g Hg Ht) as [o Ho]. rewrite Ho, mem_str_In, collect_spec. split.
    + intros H. right. exists o. split; [left; reflexivity|exact H].
    + intros [H|[o' [[<-|[]] H]]]; [congruence|exact H].
  - split; [intros _; left; exact Ht|reflexivity].
Qed.

Lemma greads_split (P Q R : arg -> Prop) : (forall a, P a -> Q a \/ R a) -> forall g x,
  greads P g x -> greads Q g x \/ greads R g x.
Proof.
  intros Hw g x Hr. induction Hr as [b k subs i Hi Hp|b k subs ns os g x Hs Hg Hr IH|b k subs ns os o Hs Ho Hp].
  - destruct (Hw _ Hp); [left|right]; apply greads_input; assumption.
  - destruct IH; [left|right]; eapply greads_sub; eassumption.
  - destruct (Hw _ Hp); [left|right]; eapply greads_subout; eassumption.
Qed.

Lemma greads_named (P : arg -> Prop) g x : x <> EmptyString -> greads P g x ->
  greads (fun a => P a /\ aname a <> EmptyString) g x.
Proof.
  intros Hne Hr. induction Hr as [b k subs i Hi Hp|b k subs ns os g x Hs Hg Hr IH|b k subs ns os o Hs Ho Hp].
  - apply greads_input; auto.
  - eapply greads_sub; eauto.
  - eapply greads_subout; eauto.
Qed.

(** When every reader of a constant says so, no constant that is read is lost. *)
Lemma dead_constants_sound nodes outputs :
  (forall g, In g nodes -> ntype (gbase g) = "Constant"%string -> exists o, noutputs (gbase g) = [o]) ->
  forall g o, In g nodes -> In o (noutputs (gbase g)) -> aname o <> EmptyString ->
  graph_reads by_name nodes outputs (aname o) ->
  ~ graph_reads (fun a => asrc a = VDynamic) nodes outputs (aname o) ->
  In g (eliminate_dead_constants nodes outputs).
Proof.
  intros H1 g o Hg Ho Hne Hr Hm. destruct (dead_constants_exact nodes outputs H1) as [keep [-> Hk]].
  apply filter_In. split; [exact Hg|]. apply (Hk g Hg). right. exists o. split; [exact Ho|].
  destruct Hr as [[g' [Hg' Hr]]|[a [Ha [Hb Hx]]]].
  - left. exists g'. split; [exact Hg'|].
    destruct (greads_split by_name (fun a => asrc a = VConstant) (fun a => asrc a = VDynamic) (fun a H => H) _ _ Hr) as [H|H].
    + apply (greads_named (fun a => asrc a = VConstant)); assumption.
    + exfalso. apply Hm. left. exists g'. auto.
  - right. exists a. split; [exact Ha|]. split; [|exact Hx]. split; [|congruence].
    destruct Hb as [Hb|Hb]; [exact Hb|]. exfalso. apply Hm. right. exists a. auto.
Qed.
