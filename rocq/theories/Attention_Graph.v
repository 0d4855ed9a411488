(** Coalescing attention keeps what a graph computes. *)
From Flocq Require Import Core BinarySingleNaN.
From Verif Require Import IR_Model IR_Spec IR_Proofs Passes_Model Passes_Spec Passes_Proofs Attention_Spec Attention_Model Attention_Cond Attention_Proofs Attention_Match.
From Verif Require Import Tensor_Spec Tensor_Proofs.
From Coq Require Import Lra Lia ZifyBool ZifyNat ZifyN.
Local Open Scope N_scope.

(** * Lists *)
Lemma set_nth_length {A} (x : A) l : forall i, length (set_nth l i x) = length l.
Proof. induction l as [|a l IH]; intros [|i]; cbn; auto. Qed.
Lemma set_nth_cases {A} (x : A) l : forall i j y, nth_error (set_nth l i x) j = Some y -> nth_error l j = Some y \/ (j = i /\ y = x).
Proof.
  induction l as [|a l IH]; intros [|i] [|j] y H; cbn in *; auto; try discriminate.
  - right. split; [reflexivity|congruence].
  - destruct (IH _ _ _ H) as [|[-> ->]]; auto.
Qed.
Lemma set_nth_same {A} (x : A) l : forall i, (i < length l)%nat -> nth_error (set_nth l i x) i = Some x.
Proof. induction l as [|a l IH]; intros [|i] H; cbn in *; try lia; [reflexivity|]. apply IH. lia. Qed.
Lemma set_nth_other {A} (x : A) l : forall i j, i <> j -> nth_error (set_nth l i x) j = nth_error l j.
Proof. induction l as [|a l IH]; intros [|i] [|j] H; cbn in *; auto; try congruence. Qed.

Definition put (ns : list rnode) (reps : list (nat * rnode)) : list rnode := fold_left (fun ns p => set_nth ns (fst p) (snd p)) reps ns.
Lemma put_length reps : forall ns, length (put ns reps) = length ns.
Proof. induction reps as [|[i r] reps IH]; intros ns; cbn; [reflexivity|]. unfold put in IH. rewrite IH. apply set_nth_length. Qed.
Lemma put_cases reps : forall ns j y, nth_error (put ns reps) j = Some y -> nth_error ns j = Some y \/ In (j, y) reps.
Proof.
  induction reps as [|[i r] reps IH]; intros ns j y H; cbn in *; [auto|].
  destruct (IH _ _ _ H) as [H1|H1]; [|auto]. destruct (set_nth_cases _ _ _ _ _ H1) as [|[-> ->]]; auto.
Qed.
(** Some replacement of a position wins. *)
Lemma put_replaced reps : forall ns i r, In (i, r) reps -> (i < length ns)%nat ->
  exists r', nth_error (put ns reps) i = Some r' /\ In (i, r') reps.
Proof.
  induction reps as [|[i0 r0] reps IH]; intros ns i r H Hi; [destruct H|].
  destruct (in_dec Nat.eq_dec i (map fst reps)) as [Hin|Hno].
  - apply in_map_iff in Hin. destruct Hin as ([i1 r1] & E & Hin). cbn in E. subst i1.
    destruct (IH (set_nth ns i0 r0) i r1 Hin) as (r' & H1 & H2); [rewrite set_nth_length; exact Hi|].
    exists r'. split; [exact H1|right; exact H2].
  - destruct H as [E|H]; [|exfalso; apply Hno; apply in_map_iff; exists (i, r); auto]. injection E as -> ->.
    exists r. split; [|left; reflexivity]. cbn. clear IH. 
    assert (Hg : forall (reps : list (nat * rnode)) (ns : list rnode), ~ In i (map fst reps) -> nth_error (fold_left (fun ns p => set_nth ns (fst p) (snd p)) reps ns) i = nth_error ns i).
    { clear. induction reps as [|[j q] reps IH]; intros ns Hno; cbn; [reflexivity|]. cbn in Hno. rewrite IH by tauto. apply set_nth_other. tauto. }
    rewrite Hg by exact Hno. apply set_nth_same. exact Hi.
Qed.

Lemma collect_In scalar nodes l : forall reps p, collect scalar nodes l = Done reps -> In p reps ->
  exists sm ms, In sm l /\ ntype sm = "Softmax"%string /\ match_sdpa scalar nodes sm = Done ms /\ In p ms /\ incl ms reps.
Proof.
  induction l as [|n l IH]; intros reps p H Hp; cbn in H; [injection H as <-; destruct Hp|].
  assert (Hskip : collect scalar nodes l = Done reps ->
    exists sm ms, In sm (n :: l) /\ ntype sm = "Softmax"%string /\ match_sdpa scalar nodes sm = Done ms /\ In p ms /\ incl ms reps).
  { intros Hc. destruct (IH _ _ Hc Hp) as (sm & ms & H1 & H2). exists sm, ms. split; [right; exact H1|exact H2]. }
  destruct (String.eqb_spec (ntype n) "Softmax") as [Ht|]; [|auto].
  apply if_some_Done in H. destruct H as [(ms & Hm & H)|[_ H]]; [|auto].
  unfold emap in H. apply ebind_Done in H. destruct H as (rest & Hr & H). injection H as <-.
  apply in_app_iff in Hp. destruct Hp as [Hp|Hp].
  - exists n, ms. split; [left; reflexivity|]. split; [exact Ht|]. split; [exact Hm|]. split; [exact Hp|]. intros y Hy. apply in_app_iff. auto.
  - destruct (IH _ _ Hr Hp) as (sm & ms' & H1 & H2 & H3 & H4 & H5). exists sm, ms'. split; [right; exact H1|]. split; [exact H2|]. split; [exact H3|].
    split; [exact H4|]. intros y Hy. apply in_app_iff. auto.
Qed.

Lemma pass_Done scalar nodes nodes' : coalesce_attention scalar nodes = Done nodes' ->
  exists reps, collect scalar nodes nodes = Done reps /\ nodes' = put nodes reps.
Proof. unfold coalesce_attention, emap. intros H. apply ebind_Done in H. destruct H as (reps & H1 & H2). injection H2 as <-. eauto. Qed.

(** * Names *)
Lemma producer_unique {V} (e : string -> option V) nodes a b x : ssa e nodes -> In a nodes -> In b nodes ->
  In x (out_names a) -> In x (out_names b) -> a = b.
Proof.
  intros [Hn _] Ha Hb Hxa Hxb. induction nodes as [|n l IH]; [destruct Ha|]. cbn in Hn.
  assert (Hd : forall m, In m l -> In x (out_names m) -> In x (map aname (noutputs n)) -> False).
  { intros m Hm Hx Hx'. eapply NoDup_app_disj; [exact Hn|exact Hx'|]. apply in_flat_map. exists m. auto. }
  destruct Ha as [->|Ha], Hb as [->|Hb]; auto.
  - exfalso. eapply Hd; eassumption.
  - exfalso. eapply Hd; eassumption.
  - apply IH; auto. eapply NoDup_app_r; exact Hn.
Qed.

Lemma args_transfer {V} static (e e' : string -> option V) l vs : args_eval static e l = Some vs ->
  (forall a, In a l -> asrc a = VConstant \/ asrc a = VDynamic -> e' (aname a) = e (aname a)) -> args_eval static e' l = Some vs.
Proof.
  revert vs. induction l as [|a l IH]; intros vs H Hag; cbn in *; [exact H|].
  destruct (arg_eval static e a) as [v|] eqn:Ea; [|discriminate]. destruct (args_eval static e l) as [ws|] eqn:El; [|discriminate].
  rewrite (IH ws eq_refl) by (intros; apply Hag; auto).
  assert (E : arg_eval static e' a = Some v).
  { unfold arg_eval in *. destruct (asrc a) eqn:Es; auto; rewrite Hag; auto. }
  rewrite E. exact H.
Qed.
Lemma args_bound {V} static (e : string -> option V) l vs a : args_eval static e l = Some vs -> In a l ->
  exists ov, arg_eval static e a = Some ov.
Proof.
  revert vs. induction l as [|b l IH]; intros vs H Hi; [destruct Hi|]. cbn in H.
  destruct (arg_eval static e b) as [v|] eqn:Eb; [|discriminate]. destruct (args_eval static e l) as [ws|] eqn:El; [|discriminate].
  destruct Hi as [->|Hi]; eauto.
Qed.
Lemma dyn_bound {V} static (e : string -> option V) a ov : arg_eval static e a = Some ov -> asrc a = VConstant \/ asrc a = VDynamic ->
  exists v, e (aname a) = Some v.
Proof. unfold arg_eval. intros H [E|E]; rewrite E in H; destruct (e (aname a)) as [v|]; eauto; discriminate. Qed.

(** * Graphs *)
Section Graph.
  Variable scalar : arg -> reading.
  Variable sem : rsem.
  Variable static : N -> option rt.
  Variables (nodes nodes' : list rnode) (e0 ef : string -> option rt).
  Hypothesis laws : attention_laws sem.
  Hypothesis Hssa : ssa e0 nodes.
  Hypothesis Hapart : apart nodes.
  Hypothesis Hrun : run sem static e0 nodes = Some ef.
  Hypothesis G : attention_graph scalar static nodes nodes' ef.
  Hypothesis Hpass : coalesce_attention scalar nodes = Done nodes'.

  Definition good (e : string -> option rt) : Prop :=
    sub e ef /\ forall n x v, In n nodes -> In x (out_names n) -> e x = Some v -> holds sem static e n.

  Lemma ssa_app_r p s ep : nodes = p ++ s -> run sem static e0 p = Some ep -> ssa ep s.
  Proof.
    intros E Hp. destruct Hssa as [Hn Hf]. rewrite E, flat_map_app in Hn, Hf. split; [eapply NoDup_app_r; exact Hn|].
    intros x Hx. rewrite (run_other sem static _ _ _ x Hp); [apply Hf; apply in_app_iff; auto|].
    intros Hx'. eapply NoDup_app_disj; [exact Hn|exact Hx'|exact Hx].
  Qed.

  Lemma prefix_good p s ep : nodes = p ++ s -> run sem static e0 p = Some ep -> good ep.
  Proof.
    intros E Hp. pose proof (ssa_app_r p s ep E Hp) as Hs. split.
    - intros x v Hx. rewrite E, run_app, Hp in Hrun. eapply run_mono; [exact (proj2 Hs)|exact Hrun|exact Hx].
    - intros n x v Hn Hx Hv. rewrite E in Hssa, Hn.
      pose proof (bound_output_ran sem static e0 ep p s n x v Hssa Hp Hn Hx Hv) as Hin.
      pose proof (run_holds sem static p e0 ep (ssa_app_l e0 p s Hssa) Hp) as HF. rewrite Forall_forall in HF. auto.
  Qed.
  Lemma ef_good : good ef.
  Proof. apply (prefix_good nodes [] ef); [symmetry; apply app_nil_r|exact Hrun]. Qed.

  Definition evaluates (e : string -> option rt) (n : rnode) (vs : list (option rt)) (outs : list rt) : Prop :=
    args_eval static e (ninputs n) = Some vs /\ sem (ntype n) (nattrs n) (length (noutputs n)) vs = Some outs.

  (** A node put in the place of a MatMul. *)
  Definition plain (fm att : rnode) : Prop :=
    forall e vs outs, good e -> evaluates e fm vs outs -> exists vs', evaluates e att vs' outs.
  Definition keyed (qi : nat) (qk : rnode) (kt k : arg) (fm att : rnode) : Prop :=
    forall e vs outs, good e -> evaluates e fm vs outs -> exists KT kc vs',
      arg_eval static e kt = Some (Some KT) /\ (exists x X, In x (out_names qk) /\ e x = Some X) /\
      sem "Transpose"%string (nattrs (corrected qk kt k)) 1%nat [Some KT] = Some [kc] /\
      evaluates (bind1 e (new_name qk) kc) att vs' outs.

  Definition found (qi : nat) (qk : rnode) (kt k : arg) : Prop :=
    nth_error nodes qi = Some qk /\ ntype qk = "MatMul"%string /\
    (exists q pre, prescaled_qk scalar nodes qk qi = Done (q, k, pre, [(qi, corrected qk kt k)])) /\
    k = mkArg (new_name qk) (swapped_ty (aty kt)) (asrc kt) /\ ty_rank (aty kt) = 4.

  Inductive replacement (reps : list (nat * rnode)) (i : nat) (r : rnode) : Prop :=
    | rep_att sm fm f0 : nth_error nodes i = Some fm -> ntype fm = "MatMul"%string -> noutputs r = noutputs fm -> ntype r = "Attention"%string ->
        nth_error (ninputs fm) 0 = Some f0 -> In sm nodes -> ntype sm = "Softmax"%string -> In (aname f0) (out_names sm) ->
        (nattrs r <> [] -> plain fm r \/
           exists qi qk kt k, In (qi, corrected qk kt k) reps /\ found qi qk kt k /\ keyed qi qk kt k fm r) ->
        replacement reps i r
    | rep_tr qk kt k : r = corrected qk kt k -> found i qk kt k -> replacement reps i r.

  Lemma replacements reps i r : collect scalar nodes nodes = Done reps -> In (i, r) reps -> replacement reps i r.
  Proof.
    intros Hc Hin. destruct (collect_In _ _ _ _ _ Hc Hin) as (sm & ms & Hsm & Hst & Hm & Hims & Hincl).
    apply match_inv in Hm. inversion Hm as [si x mask scale qi qk q k sc extras so fi fm f0 v H1 H2 H3 H4 H5 H6 H7 H8 H9 H10 H11 H12 H13 H14 H15 H16 H17 H18 E]. subst ms.
    assert (HfmIn : In fm nodes) by (eapply nth_error_In; exact H12).
    assert (Hf0out : In (aname f0) (out_names sm)) by (rewrite H15; unfold out_names; apply in_map; exact H11).
    destruct H8 as [(q0 & pre & Hstd & -> & Hsc)|(pre & Hpres & Esc)].
    - cbn [app] in Hims. destruct Hims as [Ei|[]]. injection Ei as -> <-.
      apply (rep_att _ _ _ sm fm f0); auto. intros Hat. left. intros e vs outs [Hsub Hran] [Ha Hs]. rewrite H13 in Hs.
      destruct (std_core scalar sem static nodes nodes' ef e laws Hapart G Hsub Hran sm si x mask scale qi qk q0 k pre q sc so fm f0 v vs outs) as (vs' & Hv1 & Hv2); auto.
      exists vs'. split; assumption.
    - destruct (prescaled_shape scalar nodes qk qi q k pre extras Hpres) as (kt & kp & km & y & HE1 & HE2 & _).
      assert (Hfound : found qi qk kt k).
      { split; [exact (proj1 (producer_ok _ _ _ _ H5))|]. split; [exact H6|]. split; [exists q, pre; rewrite <- HE1; exact Hpres|].
        split; [exact HE2|]. rewrite HE2 in H10. cbn [aty] in H10. rewrite swapped_rank in H10. exact H10. }
      subst extras. cbn [app] in Hims, Hincl. destruct Hims as [Ei|[Ei|[]]]; injection Ei as -> <-.
      + apply (rep_tr _ _ _ qk kt k); auto.
      + apply (rep_att _ _ _ sm fm f0); auto. intros Hat. right. exists qi, qk, kt, k.
        split; [apply Hincl; left; reflexivity|]. split; [exact Hfound|]. intros e vs outs [Hsub Hran] [Ha Hs]. rewrite H13 in Hs.
        destruct (pre_core scalar sem static nodes nodes' ef e laws Hapart G Hsub Hran sm si x mask scale qi qk q k pre _ so fm f0 v vs outs
                   Hsm Hst H1 H2 H3 H4 H5 H6 Hpres H9 H10 H11 HfmIn H13 H14 H15 H16 Ha Hs) as (kt' & KT & kc & vs' & E1 & E2 & E3 & E4 & E5 & E6 & E7 & E8).
        injection E1 as <-. exists KT, kc, vs'. split; [exact E4|]. split; [destruct E5 as [X HX]; exists x, X; split; [exact (proj2 (proj2 (producer_ok _ _ _ _ H5)))|exact HX]|].
        split; [exact E6|]. rewrite Esc. split; assumption.
  Qed.

  (** K is available where the scores are computed. *)
  Lemma key_available qi qk kt k e vs outs : found qi qk kt k -> good e -> evaluates e qk vs outs ->
    (asrc kt = VConstant \/ asrc kt = VDynamic) /\ exists KT kc, arg_eval static e kt = Some (Some KT) /\
      sem "Transpose"%string (nattrs (corrected qk kt k)) 1%nat [Some KT] = Some [kc].
  Proof.
    intros (Hqi & Hqt & (q & pre & Hp) & Hk & Hk4) [Hsub Hran] [Ha Hs].
    destruct (prescaled_shape _ _ _ _ _ _ _ _ Hp) as (kt' & kp & km & y & E1 & E2 & Hy & Hkm & Hkt & ti & tr & Htr).
    injection E1 as <-. destruct (producer_ok _ _ _ _ Hkm) as (_ & HkmIn & HkmOut). destruct (producer_ok _ _ _ _ Htr) as (_ & HtrIn & HtrOut).
    assert (HqkIn : In qk nodes) by (eapply nth_error_In; exact Hqi).
    assert (HyIn : In y (ninputs qk)) by (eapply nth_error_In; exact Hy).
    destruct (args_bound _ _ _ _ y Ha HyIn) as [oy Hoy].
    assert (Hys : asrc y = VConstant \/ asrc y = VDynamic).
    { apply (dyn_src nodes Hapart qk y HqkIn HyIn). apply (out_produced nodes km); assumption. }
    destruct (dyn_bound _ _ _ _ Hoy Hys) as [Y HY].
    destruct (Hran km (aname y) Y HkmIn HkmOut HY) as (kvs & kouts & Hka & _).
    destruct (args_bound _ _ _ _ kt Hka Hkt) as [ok Hok].
    assert (Hks : asrc kt = VConstant \/ asrc kt = VDynamic).
    { apply (dyn_src nodes Hapart km kt HkmIn Hkt). apply (out_produced nodes tr); assumption. }
    split; [exact Hks|]. destruct (dyn_bound _ _ _ _ Hok Hks) as [KT HKT]. 
    assert (HV : arg_eval static e kt = Some (Some KT)) by (unfold arg_eval; destruct Hks as [-> | ->]; rewrite HKT; reflexivity).
    destruct (rank4 scalar sem static nodes nodes' ef e G Hsub Hran km kt KT HkmIn Hkt Hk4 HV) as (b & h & m & d & HKTs).
    exists KT. eexists. split; [exact HV|]. apply (al_swap sem laws _ _ _ _ _ _ _ HKTs). unfold corrected. cbn [nattrs]. rewrite Hk4. reflexivity.
  Qed.

  Lemma unique_qk qi qi2 qk qk2 kt kt2 k k2 : found qi qk kt k -> found qi2 qk2 kt2 k2 -> new_name qk = new_name qk2 -> qi = qi2 /\ qk = qk2 /\ kt = kt2.
  Proof.
    intros (H1 & H2 & (q & pre & H3) & _) (J1 & J2 & (q2 & pre2 & J3) & _) E.
    assert (En : nname qk = nname qk2).
    { unfold new_name in E. assert (Hinj : forall a b c : string, (a ++ c = b ++ c)%string -> a = b).
      { clear. intros a b c H. assert (Hl : forall a b c : string, (a ++ c = b ++ c)%string -> String.length a = String.length b).
        { clear. intros a b c H. apply (f_equal String.length) in H. assert (Hs : forall s t : string, String.length (s ++ t) = (String.length s + String.length t)%nat).
          { induction s as [|x s IH]; intros t; cbn; [reflexivity|]. rewrite IH. reflexivity. }
          rewrite !Hs in H. lia. }
        pose proof (Hl _ _ _ H) as L. revert b L H. induction a as [|x a IH]; intros [|y b] L H; cbn in *; try discriminate; [reflexivity|].
        injection H as -> H. f_equal. apply IH; [lia|exact H]. }
      eapply Hinj. exact E. }
    assert (Ei : qi = qi2).
    { destruct (ag_names _ _ _ _ _ G) as [Hnd _]. apply (proj1 (NoDup_nth_error (map nname nodes)) Hnd).
      - apply nth_error_Some. rewrite nth_error_map, H1. discriminate.
      - rewrite !nth_error_map, H1, J1. cbn. congruence. }
    subst qi2. rewrite H1 in J1. injection J1 as <-. rewrite H3 in J3. assert (Ec : corrected qk kt k = corrected qk kt2 k2) by congruence.
    apply (f_equal ninputs) in Ec. cbn in Ec. injection Ec as Ec. auto.
  Qed.

  (** ** Running a part of the new graph *)
  Lemma new_unbound qk : In qk nodes -> ef (new_name qk) = None.
  Proof. apply (proj2 (ag_names _ _ _ _ _ G)). Qed.
  Lemma found_In qi qk kt k : found qi qk kt k -> In qk nodes.
  Proof. intros (H & _). eapply nth_error_In; exact H. Qed.

  Lemma outs_bound l e e' x : run sem static e l = Some e' -> In x (outs_of l) -> exists v, e' x = Some v.
  Proof.
    revert e. induction l as [|n l IH]; intros e H Hx; cbn in *; [destruct Hx|].
    destruct (IR_Spec.node_eval sem static e n) as [e1|] eqn:E; [|discriminate].
    destruct (in_dec string_dec x (outs_of l)) as [Hl|Hl]; [exact (IH _ H Hl)|].
    apply in_app_iff in Hx. destruct Hx as [Hx|Hx]; [|contradiction].
    rewrite (run_other sem static _ _ _ x H Hl). unfold IR_Spec.node_eval in E.
    destruct (args_eval static e (ninputs n)) as [vs|]; [|discriminate]. destruct (sem _ _ _ vs) as [outs|]; [|discriminate].
    clear - sem E Hx. revert e outs E Hx. generalize (map aname (noutputs n)) as xs.
    intros xs. revert e1. induction xs as [|y xs IH]; intros e1 e [|o outs] E Hx; cbn in E; try discriminate; [destruct Hx|].
    destruct (in_dec string_dec x xs) as [Hi|Hi]; [exact (IH _ _ _ E Hi)|].
    rewrite (bind_other sem _ _ _ _ _ E Hi). destruct Hx as [->|Hx]; [|contradiction]. exists o. unfold bind1. rewrite String.eqb_refl. reflexivity.
  Qed.

  Definition newval (x : string) (v : rt) : Prop := exists qi qk kt k KT, found qi qk kt k /\ x = new_name qk /\
    arg_eval static ef kt = Some (Some KT) /\ sem "Transpose"%string (nattrs (corrected qk kt k)) 1%nat [Some KT] = Some [v].

  Lemma node_at i r : nth_error nodes' i = Some r -> exists reps, collect scalar nodes nodes = Done reps /\ (nth_error nodes i = Some r \/ replacement reps i r).
  Proof.
    intros H. destruct (pass_Done _ _ _ Hpass) as (reps & Hc & E). exists reps. split; [exact Hc|]. rewrite E in H.
    destruct (put_cases _ _ _ _ H) as [H1|H1]; [auto|right; eapply replacements; eassumption].
  Qed.

  Lemma outs_at i r x : nth_error nodes' i = Some r -> In x (out_names r) ->
    (exists n, nth_error nodes i = Some n /\ In x (out_names n)) \/ exists qk kt k, found i qk kt k /\ x = new_name qk /\ r = corrected qk kt k.
  Proof.
    intros H Hx. destruct (node_at _ _ H) as (reps & _ & [H1|H1]); [left; eauto|].
    destruct H1 as [sm fm f0 H1 H2 H3 _ _ _ _ _ _|qk kt k H1 H2].
    - left. exists fm. split; [exact H1|]. unfold out_names in *. rewrite <- H3. exact Hx.
    - right. exists qk, kt, k. split; [exact H2|]. split; [|exact H1]. rewrite H1 in Hx. unfold out_names in Hx. cbn in Hx. destruct Hx as [<-|[]].
      destruct H2 as (_ & _ & _ & -> & _). reflexivity.
  Qed.

  Lemma part_In {A} (l l' : list A) x : part l l' -> In x l -> In x l'.
  Proof. induction 1; cbn; tauto. Qed.

  Lemma part_cons {A} (l : list A) x l' : part l (x :: l') -> part l l' \/ exists r, l = x :: r /\ part r l'.
  Proof. intros H. inversion H; subst; eauto. Qed.

  Section Part.
    Variable live : list rnode.
    Hypothesis Hself : self_contained e0 live.

    (** [p] and [p'] have run; [lp] is what is kept of [p']. *)
    Definition inv (p p' : list rnode) (lp : list rnode) (ep e2 : string -> option rt) : Prop :=
      run sem static e0 p = Some ep /\ run sem static e0 lp = Some e2 /\ length p = length p' /\ (forall n, In n lp -> In n p') /\
      forall x v, e2 x = Some v -> ep x = Some v \/ newval x v.

    Lemma e0_e2 p p' s s' lp ep e2 x v : nodes = p ++ s -> nodes' = p' ++ s' -> inv p p' lp ep e2 -> e0 x = Some v -> e2 x = Some v.
    Proof.
      intros En En' (Hp & Hl & HL & Hin & HI) Hx. eapply run_mono; [|exact Hl|exact Hx].
      intros y Hy. apply in_flat_map in Hy. destruct Hy as (n & Hn & Hy). apply Hin in Hn. apply In_nth_error in Hn. destruct Hn as [j Hj].
      assert (Hj' : nth_error nodes' j = Some n) by (rewrite En'; rewrite nth_error_app1; [exact Hj|apply nth_error_Some; congruence]).
      destruct (outs_at _ _ _ Hj' Hy) as [(m & Hm & Hmy)|(qk & kt & k & Hf & -> & _)].
      - apply (proj2 Hssa). apply in_flat_map. exists m. split; [eapply nth_error_In; exact Hm|exact Hmy].
      - destruct (e0 (new_name qk)) as [w|] eqn:E; [|reflexivity]. pose proof (new_unbound qk (found_In _ _ _ _ Hf)) as HN.
        assert (ef (new_name qk) = Some w) by (eapply run_mono; [exact (proj2 Hssa)|exact Hrun|exact E]). congruence.
    Qed.

    Lemma later p p' s s' ls lp ep e2 x : nodes = p ++ s -> nodes' = p' ++ s' -> part ls s' -> inv p p' lp ep e2 -> In x (outs_of ls) ->
      In x (outs_of s) \/ exists j qk kt k, found j qk kt k /\ x = new_name qk /\ In qk s.
    Proof.
      intros En En' Hpart (_ & _ & HL & _) Hx. apply in_flat_map in Hx. destruct Hx as (n & Hn & Hx).
      apply (part_In _ _ _ Hpart) in Hn. apply In_nth_error in Hn. destruct Hn as [j Hj].
      assert (Hj' : nth_error nodes' (length p' + j) = Some n) by (rewrite En', nth_error_app2 by lia; replace (length p' + j - length p')%nat with j by lia; exact Hj).
      assert (Hat : forall m, nth_error nodes (length p' + j) = Some m -> In m s).
      { intros m Hm. rewrite En, nth_error_app2 in Hm by lia. eapply nth_error_In; exact Hm. }
      destruct (outs_at _ _ _ Hj' Hx) as [(m & Hm & Hmy)|(qk & kt & k & Hf & Hxe & _)].
      - left. apply in_flat_map. exists m. split; [apply Hat; exact Hm|exact Hmy].
      - right. exists (length p' + j)%nat, qk, kt, k. split; [exact Hf|]. split; [exact Hxe|]. apply Hat. exact (proj1 Hf).
    Qed.

    Lemma read_old p p' s s' lp ls ep e2 x v : nodes = p ++ s -> nodes' = p' ++ s' -> part ls s' -> live = lp ++ ls -> inv p p' lp ep e2 ->
      (e0 x <> None \/ In x (produced live)) -> ep x = Some v -> e2 x = Some v.
    Proof.
      intros En En' Hpart El HI Hr Hx. pose proof (e0_e2 _ _ _ _ _ _ _ x v En En' HI) as H0. pose proof (later _ _ _ _ _ _ _ _ x En En' Hpart HI) as HLt.
      destruct HI as (Hp & Hl & HL & Hin & HI). pose proof (ssa_app_r p s ep En Hp) as Hs. destruct (prefix_good p s ep En Hp) as [Hsub _].
      assert (Hnn : forall qk, In qk nodes -> x <> new_name qk).
      { intros qk Hqk ->. apply Hsub in Hx. rewrite (new_unbound qk Hqk) in Hx. discriminate. }
      destruct Hr as [Hr|Hr].
      - apply H0. destruct (e0 x) as [w|] eqn:Ew; [|congruence].
        assert (ep x = Some w). { rewrite En in Hssa. eapply run_mono; [exact (proj2 (ssa_app_l e0 p s Hssa))|exact Hp|exact Ew]. } congruence.
      - unfold produced in Hr. rewrite El, flat_map_app in Hr. apply in_app_iff in Hr. destruct Hr as [Hr|Hr].
        + destruct (outs_bound lp e0 e2 x Hl Hr) as [w Hw]. destruct (HI _ _ Hw) as [H1|(qi & qk & kt & k & KT & Hf & Hxe & _)]; [congruence|].
          exfalso. eapply Hnn; [exact (found_In _ _ _ _ Hf)|exact Hxe].
        + exfalso. destruct (HLt Hr) as [H1|(j & qk & kt & k & Hf & Hxe & _)].
          * rewrite (proj2 Hs x H1) in Hx. discriminate.
          * eapply Hnn; [exact (found_In _ _ _ _ Hf)|exact Hxe].
    Qed.

    Lemma dyn_reads n a : In n live -> In a (ninputs n) -> asrc a = VConstant \/ asrc a = VDynamic -> e0 (aname a) <> None \/ In (aname a) (produced live).
    Proof. intros Hn Ha Hd. apply (Hself n); [exact Hn|]. exists a. auto. Qed.

    (** One node of the new graph gives what its predecessor gave. *)
    Lemma step p p' n s n' s' lp ls ep e2 : nodes = p ++ n :: s -> nodes' = p' ++ n' :: s' -> part ls s' -> live = lp ++ n' :: ls -> inv p p' lp ep e2 ->
      forall vs outs, evaluates ep n vs outs ->
      (noutputs n' = noutputs n /\ exists vs', evaluates e2 n' vs' outs) \/
      (exists qk kt k KT kc, found (length p) qk kt k /\ n' = corrected qk kt k /\ arg_eval static ef kt = Some (Some KT) /\
         evaluates e2 n' [Some KT] [kc]).
    Proof.
      intros En En' Hpart El HI vs outs Hev. pose proof HI as (Hp & Hl & HL & Hin & Hold).
      assert (Hlive : In n' live) by (rewrite El; apply in_app_iff; right; left; reflexivity).
      assert (Hpart' : part (n' :: ls) (n' :: s')) by (constructor; exact Hpart).
      pose proof (prefix_good p (n :: s) ep En Hp) as Hg.
      assert (Hi : nth_error nodes (length p) = Some n) by (rewrite En, nth_error_app2, Nat.sub_diag by lia; reflexivity).
      assert (Hi' : nth_error nodes' (length p) = Some n') by (rewrite En', nth_error_app2, HL, Nat.sub_diag by lia; reflexivity).
      assert (Hold1 : forall a v, In a (ninputs n') -> asrc a = VConstant \/ asrc a = VDynamic -> ep (aname a) = Some v -> e2 (aname a) = Some v).
      { intros a v Ha Hd Hv. eapply read_old; [exact En|exact En'|exact Hpart'|exact El|exact HI|exact (dyn_reads n' a Hlive Ha Hd)|exact Hv]. }
      assert (Hkeep : forall vs' o, evaluates ep n' vs' o -> evaluates e2 n' vs' o).
      { intros vs' o [Ha Hs]. split; [|exact Hs]. eapply args_transfer; [exact Ha|]. intros a Hain Hd.
        destruct (args_bound _ _ _ _ a Ha Hain) as [ov Hov]. destruct (dyn_bound _ _ _ _ Hov Hd) as [v Hv]. rewrite Hv. apply Hold1; assumption. }
      destruct (node_at _ _ Hi') as (reps & Hc & [Hsame|Hrep]).
      { left. assert (n' = n) by congruence. subst n'. split; [reflexivity|]. exists vs. apply Hkeep. exact Hev. }
      destruct Hrep as [sm fm f0 H1 H2 H3 Hty _ _ _ _ H4|qk kt k H1 H2].
      - left. assert (fm = n) by congruence. subst fm. split; [exact H3|].
        assert (Hat : nattrs n' <> []). { eapply (ag_scales _ _ _ _ _ G); [exact Hi'|exact Hty|exact Hi|exact H2]. }
        destruct (H4 Hat) as [Hpl|(qi & qk & kt & k & Hrin & Hf & Hk)].
        + destruct (Hpl ep vs outs Hg Hev) as [vs' Hv]. exists vs'. apply Hkeep. exact Hv.
        + destruct (Hk ep vs outs Hg Hev) as (KT & kc & vs' & HKT & (x & X & Hxo & HX) & Htr & [Ha Hs]). exists vs'. split; [|exact Hs].
          eapply args_transfer; [exact Ha|]. intros a Hain Hd.
          destruct (args_bound _ _ _ _ a Ha Hain) as [ov Hov]. destruct (dyn_bound _ _ _ _ Hov Hd) as [v Hv]. rewrite Hv.
          unfold bind1 in Hv. destruct (String.eqb_spec (new_name qk) (aname a)) as [Ea|Ea]; [|apply Hold1; assumption].
          injection Hv as <-. destruct (dyn_reads n' a Hlive Hain Hd) as [Hr|Hr].
          * exfalso. rewrite <- Ea in Hr. destruct (e0 (new_name qk)) as [w|] eqn:Ew; [|congruence].
            pose proof (run_mono sem static nodes e0 ef (new_name qk) w (proj2 Hssa) Hrun Ew). rewrite (new_unbound qk (found_In _ _ _ _ Hf)) in H. discriminate.
          * unfold produced in Hr. rewrite El, flat_map_app in Hr. apply in_app_iff in Hr. destruct Hr as [Hr|Hr].
            -- destruct (outs_bound lp e0 e2 _ Hl Hr) as [w Hw]. rewrite Hw. f_equal. destruct (Hold _ _ Hw) as [H|(qi2 & qk2 & kt2 & k2 & KT2 & Hf2 & Hx2 & HKT2 & Htr2)].
               ++ exfalso. apply (proj1 Hg) in H. rewrite <- Ea, (new_unbound qk (found_In _ _ _ _ Hf)) in H. discriminate.
               ++ rewrite <- Ea in Hx2. destruct (unique_qk _ _ _ _ _ _ _ _ Hf Hf2 Hx2) as (-> & -> & ->).
                  apply (arg_sub static ef ep (proj1 Hg)) in HKT. rewrite HKT in HKT2. injection HKT2 as <-.
                  assert (Ekk : k = k2) by (destruct Hf as (_ & _ & _ & -> & _), Hf2 as (_ & _ & _ & -> & _); reflexivity). subst k2.
                  rewrite Htr in Htr2. injection Htr2 as ->. reflexivity.
            -- exfalso. destruct (later _ _ _ _ _ _ _ _ _ En En' Hpart' HI Hr) as [H|(j & qk2 & kt2 & k2 & Hf2 & Hx2 & Hin2)].
               ++ destruct (outs_bound nodes e0 ef (aname a) Hrun) as [w Hw].
                  { unfold outs_of in *. rewrite En, flat_map_app. apply in_app_iff. right. exact H. }
                  rewrite <- Ea, (new_unbound qk (found_In _ _ _ _ Hf)) in Hw. discriminate.
               ++ rewrite <- Ea in Hx2. destruct (unique_qk _ _ _ _ _ _ _ _ Hf Hf2 Hx2) as (_ & <- & _).
                  pose proof (ssa_app_r p (n :: s) ep En Hp) as Hss. rewrite (proj2 Hss x) in HX; [discriminate|]. apply in_flat_map. exists qk. auto.
      - right. destruct H2 as (Hq1 & Hq2) eqn:EH2. assert (qk = n) by congruence. subst qk.
        destruct (key_available (length p) n kt k ep vs outs (conj Hq1 Hq2) Hg Hev) as (Hsrc & KT & kc & HKT & Htr).
        exists n, kt, k, KT, kc. split; [exact (conj Hq1 Hq2)|]. split; [exact H1|]. split; [exact (arg_sub static ef ep (proj1 Hg) _ _ HKT)|].
        apply Hkeep. split; [|rewrite H1; exact Htr]. rewrite H1. cbn [corrected ninputs args_eval]. rewrite HKT. reflexivity.
    Qed.

    Lemma bind_total : forall xs (vs : list rt) e, length xs = length vs -> exists e', bind e xs vs = Some e'.
    Proof. induction xs as [|x xs IH]; intros [|v vs] e H; cbn in *; try discriminate; [eauto|]. apply IH. lia. Qed.
    Lemma bind_length : forall xs (vs : list rt) e e', bind e xs vs = Some e' -> length xs = length vs.
    Proof. induction xs as [|x xs IH]; intros [|v vs] e e' H; cbn in *; try discriminate; [reflexivity|]. f_equal. eapply IH. exact H. Qed.

    Lemma run_rest s : forall p p' s' lp ls ep e2, nodes = p ++ s -> nodes' = p' ++ s' -> part ls s' -> live = lp ++ ls -> inv p p' lp ep e2 ->
      exists e3, run sem static e0 live = Some e3 /\ forall x v, e3 x = Some v -> ef x = Some v \/ newval x v.
    Proof.
      induction s as [|n s IH]; intros p p' s' lp ls ep e2 En En' Hpart El HI.
      - assert (Hs' : s' = []).
        { destruct (pass_Done _ _ _ Hpass) as (reps & _ & E). pose proof (put_length reps nodes) as HL. rewrite <- E, En, En', !app_length in HL.
          destruct HI as (_ & _ & HL2 & _). destruct s'; [reflexivity|]. cbn in HL. lia. }
        subst s'. inversion Hpart. subst ls. rewrite app_nil_r in El, En. exists e2. destruct HI as (Hp & Hl & _ & _ & Hold). split; [rewrite El; exact Hl|].
        intros x v Hx. destruct (Hold _ _ Hx) as [H|H]; [left|auto]. rewrite En, Hp in Hrun. injection Hrun as <-. exact H.
      - destruct s' as [|n' s'].
        { exfalso. destruct (pass_Done _ _ _ Hpass) as (reps & _ & E). pose proof (put_length reps nodes) as HL. rewrite <- E, En, En', !app_length in HL.
          destruct HI as (_ & _ & HL2 & _). cbn in HL. lia. }
        pose proof HI as (Hp & Hl & HL & Hin & Hold).
        pose proof Hrun as Hr. rewrite En, run_app, Hp in Hr. cbn in Hr.
        destruct (IR_Spec.node_eval sem static ep n) as [ep'|] eqn:Ene; [|discriminate].
        pose proof (ssa_app_r p (n :: s) ep En Hp) as Hss. destruct (ssa_cons sem static _ _ _ _ Hss Ene) as (Hnd & Hfresh & _).
        assert (Hp' : run sem static e0 (p ++ [n]) = Some ep') by (rewrite run_app, Hp; cbn; rewrite Ene; reflexivity).
        assert (Hmono : forall x v, ep x = Some v -> ep' x = Some v) by (intros x v Hx; eapply node_eval_mono; [exact Hfresh|exact Ene|exact Hx]).
        destruct (part_cons _ _ _ Hpart) as [Hpart'|(l & -> & Hpart')].
        + apply (IH (p ++ [n]) (p' ++ [n']) s' lp ls ep' e2); rewrite <- ?app_assoc; auto.
          split; [exact Hp'|]. split; [exact Hl|]. split; [rewrite !app_length, HL; reflexivity|].
          split; [intros m Hm; apply in_app_iff; auto|]. intros x v Hx. destruct (Hold _ _ Hx) as [H|H]; auto.
        + unfold IR_Spec.node_eval in Ene. destruct (args_eval static ep (ninputs n)) as [vs|] eqn:Ea; [|discriminate].
          destruct (sem (ntype n) (nattrs n) (length (noutputs n)) vs) as [outs|] eqn:Es; [|discriminate].
          assert (Hgo : forall e2' vs' outs', evaluates e2 n' vs' outs' -> bind e2 (map aname (noutputs n')) outs' = Some e2' ->
            (forall x v, In x (map aname (noutputs n')) -> e2' x = Some v -> ep' x = Some v \/ newval x v) ->
            exists e3, run sem static e0 live = Some e3 /\ forall x v, e3 x = Some v -> ef x = Some v \/ newval x v).
          { intros e2' vs' outs' [Hv1 Hv2] Hb Hnew. apply (IH (p ++ [n]) (p' ++ [n']) s' (lp ++ [n']) l ep' e2'); rewrite <- ?app_assoc; auto.
            split; [exact Hp'|]. split; [rewrite run_app, Hl; cbn; unfold IR_Spec.node_eval; rewrite Hv1, Hv2, Hb; reflexivity|].
            split; [rewrite !app_length, HL; reflexivity|]. split; [intros m Hm; apply in_app_iff in Hm; apply in_app_iff; destruct Hm as [Hm|Hm]; auto|].
            intros x v Hx. destruct (in_dec string_dec x (map aname (noutputs n'))) as [Hxi|Hxi]; [apply Hnew; assumption|].
            rewrite (bind_other sem _ _ _ _ _ Hb Hxi) in Hx. destruct (Hold _ _ Hx); auto. }
          destruct (step p p' n s n' s' lp l ep e2 En En' Hpart' El HI vs outs (conj Ea Es)) as [[Ho (vs' & Hev)]|(qk & kt & k & KT & kc & Hf & En1 & HKT & Hev)].
          * destruct (bind_total (map aname (noutputs n')) outs e2) as [e2' Hb]; [rewrite Ho; eapply bind_length; exact Ene|].
            apply (Hgo e2' vs' outs Hev Hb). intros x v Hxi Hx. left.
            assert (F1 : Forall2 (fun x v => e2' x = Some v) (map aname (noutputs n')) outs) by (apply (bind_vals sem _ _ _ _ Hb); rewrite Ho; exact Hnd).
            assert (F2 : Forall2 (fun x v => ep' x = Some v) (map aname (noutputs n)) outs) by (apply (bind_vals sem _ _ _ _ Ene); exact Hnd).
            rewrite Ho in F1, Hxi. clear - F1 F2 Hxi Hx. revert F2. induction F1 as [|y w xs ws Hy F1 IHF]; intros F2; [destruct Hxi|].
            inversion F2; subst. destruct Hxi as [->|Hxi]; [congruence|auto].
          * destruct (bind_total (map aname (noutputs n')) [kc] e2) as [e2' Hb]; [rewrite En1; reflexivity|].
            apply (Hgo e2' [Some KT] [kc] Hev Hb). intros x v Hxi Hx. right. rewrite En1 in Hxi, Hb. cbn in Hxi, Hb. destruct Hxi as [Hxi|[]]. subst x.
            injection Hb as <-. unfold bind1 in Hx. rewrite String.eqb_refl in Hx. injection Hx as <-.
            exists (length p), qk, kt, k, KT. split; [exact Hf|]. split; [destruct Hf as (_ & _ & _ & -> & _); reflexivity|]. split; [exact HKT|].
            destruct Hev as [_ Hev]. rewrite En1 in Hev. exact Hev.
    Qed.

    Lemma run_part : part live nodes' ->
      exists e3, run sem static e0 live = Some e3 /\ forall x v, e3 x = Some v -> ef x = Some v \/ newval x v.
    Proof.
      intros Hpart. apply (run_rest nodes [] [] nodes' [] live e0 e0); auto.
      split; [reflexivity|]. split; [reflexivity|]. split; [reflexivity|]. split; [intros n []|auto].
    Qed.
  End Part.

  Lemma newval_new x v : newval x v -> exists n, In n nodes /\ ntype n = "MatMul"%string /\ x = new_name n.
  Proof. intros (qi & qk & kt & k & KT & Hf & Hx & _). exists qk. split; [exact (found_In _ _ _ _ Hf)|]. split; [exact (proj1 (proj2 Hf))|exact Hx]. Qed.

  Lemma part_runs live : part live nodes' -> self_contained e0 live ->
    exists e3, run sem static e0 live = Some e3 /\
      forall x, (e0 x <> None \/ In x (produced live)) -> (exists v, e3 x = Some v /\ ef x = Some v) \/ (exists n, In n nodes /\ ntype n = "MatMul"%string /\ x = new_name n).
  Proof.
    intros Hpart Hself. destruct (run_part live Hself Hpart) as (e3 & Hr & H). exists e3. split; [exact Hr|].
    intros x Hx. assert (Hb : exists v, e3 x = Some v).
    { destruct Hx as [Hx|Hx]; [|exact (outs_bound live e0 e3 x Hr Hx)].
      destruct (in_dec string_dec x (outs_of live)) as [Hi|Hi]; [exact (outs_bound live e0 e3 x Hr Hi)|].
      rewrite (run_other sem static _ _ _ x Hr Hi). destruct (e0 x); [eauto|congruence]. }
    destruct Hb as [v Hv]. destruct (H _ _ Hv) as [H1|H1]; [left; eauto|right; eapply newval_new; exact H1].
  Qed.

  (** ** What the new nodes read *)
  Lemma ef_from x v : ef x = Some v -> e0 x <> None \/ In x (produced nodes).
  Proof. intros H. destruct (run_bound sem static nodes e0 ef x v Hrun H) as [H1|H1]; [left; congruence|right; exact H1]. Qed.
  Lemma node_ran n : In n nodes -> exists vs outs, evaluates ef n vs outs.
  Proof.
    intros Hn. pose proof (run_holds sem static nodes e0 ef Hssa Hrun) as HF. rewrite Forall_forall in HF.
    destruct (HF n Hn) as (vs & outs & H1 & H2 & _). exists vs, outs. split; assumption.
  Qed.
  Lemma out0_read qk n f0 : ntype n = "MatMul"%string -> nth_error (ninputs n) 0 = Some f0 -> qk = n ->
    forall qi kt k sm, found qi qk kt k -> In sm nodes -> ntype sm = "Softmax"%string -> In (aname f0) (out_names sm) -> False.
  Proof.
    intros Hmm Hf0 -> qi kt k sm (_ & _ & (q & pre & Hp) & _) Hsm Hst Hout.
    unfold prescaled_qk in Hp. apply ebind_Done in Hp. destruct Hp as (x0 & Hx0 & Hp). apply input_Done in Hx0.
    apply ebind_Done in Hp. destruct Hp as ([qp qm] & Hqm & Hp). apply ebind_Done in Hp. destruct Hp as (x1 & Hx1 & Hp).
    apply ebind_Done in Hp. destruct Hp as ([kp km] & Hkm & Hp). cbn [snd] in Hp.
    destruct (String.eqb_spec (ntype qm) "Mul") as [Hqmt|]; [|discriminate].
    apply try_Done in Hqm. destruct (producer_ok _ _ _ _ Hqm) as (_ & HqmIn & HqmOut).
    rewrite Hf0 in Hx0. injection Hx0 as <-. pose proof (producer_unique e0 nodes qm sm (aname f0) Hssa HqmIn Hsm HqmOut Hout) as ->. congruence.
  Qed.

  (** The Transpose nodes that were asked for are there. *)
  Lemma corrected_there reps qi qk kt k : collect scalar nodes nodes = Done reps -> found qi qk kt k -> In (qi, corrected qk kt k) reps ->
    nth_error nodes' qi = Some (corrected qk kt k).
  Proof.
    intros Hc Hf Hin. destruct (pass_Done _ _ _ Hpass) as (reps' & Hc' & E). assert (reps' = reps) by congruence. subst reps'.
    assert (Hlt : (qi < length nodes)%nat) by (apply nth_error_Some; rewrite (proj1 Hf); discriminate).
    destruct (put_replaced reps nodes qi _ Hin Hlt) as (r' & Hr1 & Hr2). rewrite E, Hr1. f_equal.
    destruct (replacements reps qi r' Hc Hr2) as [sm fm f0 H1 H2 _ _ H3 H4 H5 H6 _|qk2 kt2 k2 H1 H2].
    - exfalso. eapply (out0_read qk fm f0 H2 H3); [|exact Hf|exact H4|exact H5|exact H6]. pose proof (proj1 Hf). congruence.
    - assert (qk2 = qk) by (pose proof (proj1 Hf); pose proof (proj1 H2); congruence). subst qk2.
      destruct (unique_qk _ _ _ _ _ _ _ _ Hf H2 eq_refl) as (_ & _ & ->). rewrite H1.
      assert (Ek : k2 = k) by (destruct Hf as (_ & _ & _ & -> & _), H2 as (_ & _ & _ & -> & _); reflexivity). rewrite Ek. reflexivity.
  Qed.

  Lemma new_reads n x : In n nodes' -> reads n x -> e0 x <> None \/ In x (produced nodes') \/ In x (produced nodes).
  Proof.
    intros Hn (a & Ha & <- & Hd). apply In_nth_error in Hn. destruct Hn as [i Hi].
    assert (Hold : forall v, ef (aname a) = Some v -> e0 (aname a) <> None \/ In (aname a) (produced nodes') \/ In (aname a) (produced nodes)).
    { intros v Hv. destruct (ef_from _ _ Hv); auto. }
    assert (Hev : forall vs outs, evaluates ef n vs outs -> e0 (aname a) <> None \/ In (aname a) (produced nodes') \/ In (aname a) (produced nodes)).
    { intros vs outs [H1 _]. destruct (args_bound _ _ _ _ a H1 Ha) as [ov Hov]. destruct (dyn_bound _ _ _ _ Hov Hd) as [v Hv]. eapply Hold; exact Hv. }
    destruct (node_at _ _ Hi) as (reps & Hc & [Hsame|Hrep]).
    - destruct (node_ran n) as (vs & outs & H); [eapply nth_error_In; exact Hsame|]. eapply Hev; exact H.
    - destruct Hrep as [sm fm f0 H1 H2 H3 Hty _ _ _ _ H4|qk kt k H1 H2].
      + destruct (node_ran fm) as (vs & outs & H); [eapply nth_error_In; exact H1|].
        assert (Hat : nattrs n <> []). { eapply (ag_scales _ _ _ _ _ G); [exact Hi|exact Hty|exact H1|exact H2]. }
        destruct (H4 Hat) as [Hpl|(qi & qk & kt & k & Hrin & Hf & Hk)].
        * destruct (Hpl ef vs outs ef_good H) as [vs' Hv]. eapply Hev; exact Hv.
        * destruct (Hk ef vs outs ef_good H) as (KT & kc & vs' & _ & _ & _ & [Hargs _]).
          destruct (args_bound _ _ _ _ a Hargs Ha) as [ov Hov]. destruct (dyn_bound _ _ _ _ Hov Hd) as [v Hv].
          unfold bind1 in Hv. destruct (String.eqb_spec (new_name qk) (aname a)) as [Ea|Ea]; [|eapply Hold; exact Hv].
          right; left. pose proof (corrected_there reps qi qk kt k Hc Hf Hrin) as Ht. apply in_flat_map. exists (corrected qk kt k).
          split; [eapply nth_error_In; exact Ht|]. cbn. left. rewrite <- Ea. destruct Hf as (_ & _ & _ & -> & _). reflexivity.
      + destruct (node_ran qk) as (vs & outs & H); [eapply found_In; exact H2|].
        destruct (key_available i qk kt k ef vs outs H2 ef_good H) as (_ & KT & kc & HKT & _).
        rewrite H1 in Ha. cbn in Ha. destruct Ha as [<-|[]]. destruct (dyn_bound _ _ _ _ HKT Hd) as [v Hv]. eapply Hold; exact Hv.
  Qed.

  (** A name disappears only with a MatMul that became a Transpose. *)
  Lemma removed x : In x (produced nodes) -> ~ In x (produced nodes') ->
    exists i qk kt k, found i qk kt k /\ In x (out_names qk) /\ nth_error nodes' i = Some (corrected qk kt k).
  Proof.
    intros Hx Hno. apply in_flat_map in Hx. destruct Hx as (n & Hn & Hx). apply In_nth_error in Hn. destruct Hn as [i Hi].
    assert (HL : length nodes' = length nodes) by (destruct (pass_Done _ _ _ Hpass) as (reps & _ & E); rewrite E; apply put_length).
    destruct (nth_error nodes' i) as [r|] eqn:Er; [|apply nth_error_None in Er; assert (i < length nodes)%nat by (apply nth_error_Some; congruence); lia].
    assert (Hno' : ~ In x (out_names r)) by (intros H; apply Hno; apply in_flat_map; exists r; split; [eapply nth_error_In; exact Er|exact H]).
    destruct (node_at _ _ Er) as (reps & Hc & [Hsame|Hrep]); [exfalso; apply Hno'; assert (r = n) by congruence; subst; exact Hx|].
    destruct Hrep as [sm fm f0 H1 H2 H3 _ _ _ _ _ _|qk kt k H1 H2].
    - exfalso. apply Hno'. assert (fm = n) by congruence. subst fm. unfold out_names in *. rewrite H3. exact Hx.
    - exists i, qk, kt, k. split; [exact H2|]. assert (qk = n) by (pose proof (proj1 H2); congruence). subst qk. split; [exact Hx|]. congruence.
  Qed.
End Graph.

(** * Whole graphs *)
Section Whole.
  Variable scalar : arg -> reading.
  Variable sem : rsem.
  Variable static : N -> option rt.
  Variables (nodes nodes' : list rnode) (e0 ef : string -> option rt).
  Hypothesis laws : attention_laws sem.
  Hypothesis Hssa : ssa e0 nodes.
  Hypothesis Hapart : apart nodes.
  Hypothesis Hrun : run sem static e0 nodes = Some ef.
  Hypothesis G : attention_graph scalar static nodes nodes' ef.
  Hypothesis Hpass : coalesce_attention scalar nodes = Done nodes'.

  Lemma part_refl {A} (l : list A) : part l l.
  Proof. induction l; constructor; assumption. Qed.
  Lemma part_filter {A} (f : A -> bool) l : part (filter f l) l.
  Proof. induction l as [|x l IH]; cbn; [constructor|]. destruct (f x); constructor; exact IH. Qed.

  Lemma reads_kept live : part live nodes' -> (forall n x, In n live -> reads n x -> In x (produced nodes') -> In x (produced live)) ->
    (forall n x, In n live -> reads n x -> In x (produced nodes) -> In x (produced nodes')) -> self_contained e0 live.
  Proof.
    intros Hpart Hk Hrem n x Hn Hr. pose proof (part_In _ _ _ Hpart Hn) as Hn'.
    destruct (new_reads scalar sem static nodes nodes' e0 ef laws Hssa Hapart Hrun G Hpass n x Hn' Hr) as [H|[H|H]]; [auto|right; eauto|right].
    apply (Hk n); auto. apply (Hrem n); auto.
  Qed.

  (** When no MatMul became a Transpose, the whole new graph runs as before. *)
  Lemma standard_runs :
    (forall i n, nth_error nodes' i = Some n -> ntype n = "Transpose"%string -> nth_error nodes i = Some n) ->
    exists e2, run sem static e0 nodes' = Some e2 /\ forall x, e2 x = ef x.
  Proof.
    intros Hstd.
    assert (Hprod : forall x, In x (produced nodes) -> In x (produced nodes')).
    { intros x Hx. destruct (in_dec string_dec x (produced nodes')) as [|Hno]; [assumption|].
      destruct (removed scalar sem static nodes nodes' ef laws Hapart G Hpass x Hx Hno) as (i & qk & kt & k & Hf & Hxo & Hi).
      pose proof (Hstd _ _ Hi eq_refl) as H. destruct Hf as (H1 & H2 & _). rewrite H1 in H. injection H as H. rewrite H in H2. discriminate. }
    assert (Hself : self_contained e0 nodes').
    { apply reads_kept; auto using part_refl. }
    destruct (run_part scalar sem static nodes nodes' e0 ef laws Hssa Hapart Hrun G Hpass nodes' Hself (part_refl _)) as (e2 & Hr & H).
    exists e2. split; [exact Hr|].
    assert (Hno : forall x v, e2 x = Some v -> ef x = Some v).
    { intros x v Hv. destruct (H _ _ Hv) as [H1|H1]; [exact H1|exfalso].
      destruct H1 as (qi & qk & kt & k & KT & Hf & Hx & _).
      pose proof (found_In scalar nodes _ _ _ _ Hf) as Hin.
      destruct (run_bound sem static nodes' e0 e2 x v Hr Hv) as [H1|H1].
      - pose proof (run_mono sem static nodes e0 ef x v (proj2 Hssa) Hrun H1) as H2. rewrite Hx, (proj2 (ag_names _ _ _ _ _ G) qk Hin) in H2. discriminate.
      - apply in_flat_map in H1. destruct H1 as (n & Hn & Hxn). apply In_nth_error in Hn. destruct Hn as [i Hi].
        destruct (outs_at scalar sem static nodes nodes' ef laws Hapart G Hpass i n x Hi Hxn) as [(m & Hm & Hxm)|(qk2 & kt2 & k2 & Hf2 & Hx2 & En2)].
        + destruct (outs_bound sem static nodes e0 ef x Hrun) as [w Hw]; [apply in_flat_map; exists m; split; [eapply nth_error_In; exact Hm|exact Hxm]|].
          rewrite Hx, (proj2 (ag_names _ _ _ _ _ G) qk Hin) in Hw. discriminate.
        + rewrite En2 in Hi. pose proof (Hstd _ _ Hi eq_refl) as Hs. destruct Hf2 as (J1 & J2 & _). rewrite J1 in Hs. injection Hs as Hs. rewrite Hs in J2. discriminate. }
    intros x. destruct (ef x) as [v|] eqn:Ev; [|destruct (e2 x) as [w|] eqn:Ew; [rewrite (Hno _ _ Ew) in Ev; discriminate|reflexivity]].
    assert (Hb : exists w, e2 x = Some w).
    { destruct (run_bound sem static nodes e0 ef x v Hrun Ev) as [H1|H1].
      - destruct (in_dec string_dec x (outs_of nodes')) as [Hi|Hi]; [exact (outs_bound sem static nodes' e0 e2 x Hr Hi)|].
        rewrite (run_other sem static _ _ _ x Hr Hi). eauto.
      - apply (outs_bound sem static nodes' e0 e2 x Hr). apply Hprod. exact H1. }
    destruct Hb as [w Hw]. rewrite Hw. symmetry. rewrite <- Ev. symmetry. rewrite <- (Hno _ _ Hw). reflexivity.
  Qed.

  (** ** With dead nodes removed *)
  Lemma dead_loop_producers outputs m n x : reads n x -> In x (out_names m) ->
    forall fuel cur, In m cur -> In n (dead_loop fuel outputs cur) -> In m (dead_loop fuel outputs cur).
  Proof.
    intros (a & Ha & <- & _) Hx. induction fuel as [|f IH]; intros cur Hm Hn; cbn in *; [exact Hm|].
    assert (Hstep : In n cur -> In m (dead_step outputs cur)).
    { intros Hc. unfold dead_step. apply filter_In. split; [exact Hm|]. apply existsb_exists.
      unfold out_names in Hx. apply in_map_iff in Hx. destruct Hx as (o & Eo & Ho). exists o. split; [exact Ho|].
      apply mem_str_In. unfold live_names. apply in_app_iff. right. apply in_flat_map. exists n. split; [exact Hc|]. rewrite Eo. apply in_map. exact Ha. }
    destruct (Nat.eqb _ _).
    - apply Hstep. unfold dead_step in Hn. apply filter_In in Hn. exact (proj1 Hn).
    - apply IH; [|exact Hn]. apply Hstep. apply dead_loop_incl in Hn. unfold dead_step in Hn. apply filter_In in Hn. exact (proj1 Hn).
  Qed.
  Lemma dead_loop_output outputs m o : In o outputs -> In (aname o) (out_names m) ->
    forall fuel cur, In m cur -> In m (dead_loop fuel outputs cur).
  Proof.
    intros Ho Hx. induction fuel as [|f IH]; intros cur Hm; cbn; [exact Hm|].
    assert (Hstep : In m (dead_step outputs cur)).
    { unfold dead_step. apply filter_In. split; [exact Hm|]. apply existsb_exists.
      unfold out_names in Hx. apply in_map_iff in Hx. destruct Hx as (o' & Eo & Ho'). exists o'. split; [exact Ho'|].
      apply mem_str_In. unfold live_names. apply in_app_iff. left. rewrite Eo. apply in_map. exact Ho. }
    destruct (Nat.eqb _ _); auto.
  Qed.

  Lemma dead_runs outputs : let live := eliminate_dead_nodes nodes' outputs in
    (forall n x, In n live -> reads n x -> In x (produced nodes) -> In x (produced nodes')) ->
    (forall o, In o outputs -> e0 (aname o) <> None \/ In (aname o) (produced nodes) /\ In (aname o) (produced nodes')) ->
    exists e2, run sem static e0 live = Some e2 /\ forall o, In o outputs -> e2 (aname o) = ef (aname o).
  Proof.
    intros live Hrem Hout.
    assert (Hpart : part live nodes').
    { unfold live, eliminate_dead_nodes. destruct (dead_loop_sub outputs (S (length nodes')) nodes') as [f ->]. apply part_filter. }
    assert (Hself : self_contained e0 live).
    { apply reads_kept; [exact Hpart| |exact Hrem]. intros n x Hn Hr Hx. apply in_flat_map in Hx. destruct Hx as (m & Hm & Hx).
      apply in_flat_map. exists m. split; [|exact Hx]. exact (dead_loop_producers outputs m n x Hr Hx _ _ Hm Hn). }
    destruct (part_runs scalar sem static nodes nodes' e0 ef laws Hssa Hapart Hrun G Hpass live Hpart Hself) as (e2 & Hr & H).
    exists e2. split; [exact Hr|]. intros o Ho.
    destruct (H (aname o)) as [(v & -> & ->)|(n & Hn & _ & En)]; [|reflexivity|exfalso].
    - destruct (Hout o Ho) as [H1|[_ H1]]; [auto|right]. apply in_flat_map in H1. destruct H1 as (m & Hm & Hx). apply in_flat_map. exists m.
      split; [|exact Hx]. apply (dead_loop_output outputs m o Ho Hx). exact Hm.
    - assert (Hb : exists v, ef (aname o) = Some v).
      { destruct (Hout o Ho) as [H1|[H1 _]].
        - destruct (e0 (aname o)) as [v|] eqn:Ev; [|congruence]. exists v. eapply run_mono; [exact (proj2 Hssa)|exact Hrun|exact Ev].
        - exact (outs_bound sem static nodes e0 ef _ Hrun H1). }
      destruct Hb as [v Hv]. rewrite En, (proj2 (ag_names _ _ _ _ _ G) n Hn) in Hv. discriminate.
  Qed.

End Whole.

(** * What is replaced, for every graph *)
Lemma consumers_uses nodes x : length (consumers nodes x) = uses nodes x.
Proof.
  unfold consumers, uses. generalize 0%nat as i. induction nodes as [|n l IH]; intros i; cbn; [reflexivity|].
  rewrite app_length, map_length, filter_app, app_length, IH. f_equal.
  induction (ninputs n) as [|a r IHr]; cbn; [reflexivity|]. rewrite String.eqb_sym. destruct (String.eqb x (aname a)); cbn; congruence.
Qed.

Lemma same_length scalar nodes nodes' : coalesce_attention scalar nodes = Done nodes' -> length nodes' = length nodes.
Proof. intros H. destruct (pass_Done _ _ _ H) as (reps & _ & ->). apply put_length. Qed.

Lemma replaced_what scalar nodes nodes' i n r : coalesce_attention scalar nodes = Done nodes' ->
  nth_error nodes i = Some n -> nth_error nodes' i = Some r -> r <> n ->
  ntype n = "MatMul"%string /\
  ((ntype r = "Attention"%string /\ noutputs r = noutputs n /\
    exists sm o, In sm nodes /\ ntype sm = "Softmax"%string /\ In o (noutputs sm) /\ uses nodes (aname o) = 1%nat /\ In (aname o) (map aname (ninputs n))) \/
   (ntype r = "Transpose"%string /\ map aname (noutputs r) = [new_name n] /\
    exists o rest, noutputs n = o :: rest /\ uses nodes (aname o) = 1%nat)).
Proof.
  intros Hpass Hn Hr Hne. destruct (pass_Done _ _ _ Hpass) as (reps & Hc & ->).
  destruct (put_cases _ _ _ _ Hr) as [H|Hin]; [congruence|].
  destruct (collect_In _ _ _ _ _ Hc Hin) as (sm & ms & Hsm & Hst & Hm & Hims & _).
  pose proof Hm as Hm'. apply match_inv in Hm.
  inversion Hm as [si x mask scale qi qk q k sc extras so fi fm f0 v H1 H2 H3 H4 H5 H6 H7 H8 H9 H10 H11 H12 H13 H14 H15 H16 H17 H18 E]. subst ms.
  assert (Hatt : (i, r) = (fi, attention_node fm q k v mask sc) -> ntype n = "MatMul"%string /\
    (ntype r = "Attention"%string /\ noutputs r = noutputs n /\
     exists sm o, In sm nodes /\ ntype sm = "Softmax"%string /\ In o (noutputs sm) /\ uses nodes (aname o) = 1%nat /\ In (aname o) (map aname (ninputs n)))).
  { intros Ei. injection Ei as -> ->. rewrite Hn in H12. injection H12 as ->. split; [exact H13|]. split; [reflexivity|]. split; [reflexivity|].
    exists sm, so. split; [exact Hsm|]. split; [exact Hst|]. split; [exact H11|].
    assert (Hs : In (aname so) (map aname (ninputs fm))) by (rewrite <- H15; apply in_map; eapply nth_error_In; exact H14). split; [|exact Hs].
    rewrite <- consumers_uses, H18. reflexivity. }
  apply in_app_iff in Hims. destruct Hims as [Hims|[Hims|[]]]; [|destruct (Hatt (eq_sym Hims)); auto].
  destruct H8 as [(q0 & pre & Hstd & -> & _)|(pre & Hpres & _)]; [destruct Hims|].
  destruct (prescaled_shape scalar nodes qk qi q k pre extras Hpres) as (kt & kp & km & y & -> & Hk & _).
  destruct Hims as [Ei|[]]. injection Ei as -> <-. pose proof (proj1 (producer_ok _ _ _ _ H5)) as Hq. rewrite Hn in Hq. injection Hq as ->.
  split; [exact H6|]. right. split; [reflexivity|]. split; [rewrite Hk; reflexivity|].
  destruct H7 as (o & Ho & Hu). unfold output0 in Ho. destruct (noutputs qk) as [|o' rest] eqn:Eo; [discriminate|]. injection Ho as ->.
  exists o, rest. split; [reflexivity|]. unfold single_use in Hu. rewrite consumers_uses in Hu. apply Nat.eqb_eq in Hu. exact Hu.
Qed.
