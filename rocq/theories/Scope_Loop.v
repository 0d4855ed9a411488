(** Proofs about the generated code of Loop nodes. *)
From Verif Require Import IR_Model Scope_Spec Scope_Model Scope_Cond Scope_Proofs Scope_If.
From Coq Require Import Lia ZifyBool ZifyNat.

Lemma mem_str_In x l : mem_str x l = true <-> In x l.
Proof.
  induction l as [|y l IH]; [split; [discriminate|intros []]|]. cbn. destruct (String.eqb_spec x y) as [->|H]; cbn.
  - split; [left; reflexivity|reflexivity].
  - rewrite IH. split; [right; assumption|intros [E|E]; [congruence|exact E]].
Qed.

(** * Which block the code changes *)
Fixpoint scoped (K : list string) (l : list stmt) : Prop :=
  match l with
  | [] => True
  | Use x h :: r => (h = Moved -> In x K) /\ scoped K r
  | Let xs :: r => scoped (K ++ xs) r
  | _ => False
  end.
Definition lets (l : list stmt) : list string := flat_map (fun c => match c with Let xs => xs | _ => [] end) l.
Lemma lets_app a b : lets (a ++ b) = lets a ++ lets b.
Proof. apply flat_map_app. Qed.
Lemma scoped_app a : forall K b, scoped K a -> scoped (K ++ lets a) b -> scoped K (a ++ b).
Proof.
  induction a as [|c a IH]; intros K b Ha Hb; [cbn in *; rewrite app_nil_r in Hb; exact Hb|]. destruct c; cbn in *; try contradiction.
  - split; [exact (proj1 Ha)|]. apply IH; [exact (proj2 Ha)|exact Hb].
  - apply IH; [exact Ha|]. rewrite <- app_assoc. exact Hb.
Qed.
Lemma scoped_frame l : forall K (fb M B : frame) (rest s' : state), scoped K l -> (forall x, In x K -> fb x <> None \/ (M x = None /\ B x <> None)) ->
  exec l (fb :: M :: B :: rest) = Some s' ->
  exists fb' B', s' = fb' :: M :: B' :: rest /\ (forall x, B x = None <-> B' x = None) /\
    (forall x, fb' x = None <-> (fb x = None /\ ~ In x (lets l))) /\ (forall x, ~ In x K \/ fb x <> None -> B' x = B x).
Proof.
  induction l as [|c l IH]; intros K fb M B rest s' Hs HK X.
  - cbn in X. injection X as <-. exists fb, B. split; [reflexivity|]. split; [tauto|]. split; [cbn; tauto|reflexivity].
  - destruct c as [x h|xs| | | |]; try contradiction; cbn [scoped] in Hs.
    + destruct Hs as [Hm Hs]. cbn [exec exec1] in X. destruct (has _ x); [|discriminate].
      change (lets (Use x h :: l)) with (lets l).
      destruct h; [|exact (IH K fb M B rest s' Hs HK X)|exact (IH K fb M B rest s' Hs HK X)].
      specialize (Hm eq_refl). cbn [put] in X. destruct (fb x) as [v|] eqn:Ef.
      * destruct (IH K (set fb x false) M B rest s' Hs) as (fb' & B' & -> & HB & Hf & HE); [|exact X|].
        -- intros y Hy. destruct (HK y Hy) as [H|H]; [left|right; exact H]. rewrite set_dom. tauto.
        -- exists fb', B'. split; [reflexivity|]. split; [exact HB|]. split.
           ++ intros y. rewrite Hf, set_dom. split; [tauto|]. intros [H1 H2]. repeat split; auto. intros ->. congruence.
           ++ intros y Hy. apply HE. destruct Hy as [Hy|Hy]; [left; exact Hy|right]. rewrite set_dom. tauto.
      * destruct (HK x Hm) as [H0|[HM HB0]]; [congruence|]. rewrite HM in X. destruct (B x) as [v|] eqn:EB; [|congruence].
        destruct (IH K fb M (set B x false) rest s' Hs) as (fb' & B' & -> & HB & Hf & HE); [|exact X|].
        -- intros y Hy. destruct (HK y Hy) as [H|H]; [left; exact H|right]. rewrite set_dom. split; [tauto|]. destruct H as [_ H]. tauto.
        -- exists fb', B'. split; [reflexivity|]. split; [|split; [exact Hf|]].
           ++ intros y. rewrite <- HB, set_dom. split; [|tauto]. intros H1. split; [exact H1|]. intros ->. congruence.
           ++ intros y Hy. rewrite (HE y Hy). unfold set. destruct (String.eqb_spec x y) as [<-|]; [|reflexivity]. destruct Hy as [Hy|Hy]; [contradiction|congruence].
    + cbn [exec exec1 declare] in X.
      destruct (IH (K ++ xs) (fold_left (fun f x => set f x true) xs fb) M B rest s' Hs) as (fb' & B' & -> & HB & Hf & HE); [|exact X|].
      * intros y Hy. destruct (in_dec string_dec y xs) as [Hi|Hi]; [left; rewrite declare_dom; tauto|].
        apply in_app_or in Hy. destruct Hy as [Hy|Hy]; [|contradiction]. destruct (HK y Hy) as [H|H]; [left; rewrite declare_dom; tauto|right; exact H].
      * exists fb', B'. split; [reflexivity|]. split; [exact HB|]. split.
        -- intros y. rewrite Hf, declare_dom. change (lets (Let xs :: l)) with (xs ++ lets l). rewrite in_app_iff. tauto.
        -- intros y Hy. apply HE. rewrite declare_dom, in_app_iff. destruct (in_dec string_dec y xs); tauto.
Qed.

Lemma acc_scoped pos acc : forall s K, (forall c, In c acc -> tracked (acc_arg c) = true -> In (aname (acc_arg c)) K) ->
  scoped K (snd (gen_accesses s pos acc)) /\ lets (snd (gen_accesses s pos acc)) = [].
Proof.
  induction acc as [|c acc IH]; intros s K H; [split; [exact I|reflexivity]|]. cbn [gen_accesses].
  assert (E : exists s1 h, gen_access s pos c = (s1, [Use (aname (acc_arg c)) h]) /\ (h = Moved -> tracked (acc_arg c) = true)).
  { destruct c as [a|a]; cbn [gen_access acc_arg]; [|exists s, Copied; split; [reflexivity|discriminate]].
    unfold use_arg. destruct (tracked a); [|exists s, Copied; split; [reflexivity|discriminate]].
    destruct (use_owned s a pos) as [s1 b]. exists s1. eexists. split; reflexivity. }
  destruct E as (s1 & h & E & Hh). rewrite E. destruct (IH s1 K) as [A B]; [intros c' Hc'; apply H; right; exact Hc'|].
  destruct (gen_accesses s1 pos acc) as [s2 e2]. cbn [snd] in *. cbn. split; [split; [|exact A]|exact B].
  intros Hm. apply H; [left; reflexivity|exact (Hh Hm)].
Qed.

(** * The captured values *)
Lemma bindings_exclude ex used pos : forall refs outer s,
  bindings s pos outer refs ex used = bindings s pos outer refs [] (filter (fun y => negb (mem_str y ex)) used).
Proof.
  assert (M : forall x, negb (mem_str x (filter (fun y => negb (mem_str y ex)) used)) = (mem_str x ex || negb (mem_str x used))%bool).
  { intros x. rewrite <- (Bool.negb_involutive (mem_str x ex)), <- Bool.negb_andb. f_equal. apply Bool.eq_iff_eq_true.
    rewrite Bool.andb_true_iff, !mem_str_In, filter_In. tauto. }
  induction refs as [|x refs IH]; intros outer s; [reflexivity|]. cbn [bindings]. change (mem_str x []) with false. cbn [orb].
  rewrite M. match goal with |- (let (_, _) := ?e in _) = _ => destruct e as [s1 e1] end. rewrite IH. reflexivity.
Qed.
Lemma bindings_scoped used pos : forall refs outer s K, length refs = length outer ->
  scoped K (snd (bindings s pos outer refs [] used)) /\
  (forall x, In x (lets (snd (bindings s pos outer refs [] used))) -> In x used) /\
  (forall x o, In (x, o) (filter (fun p => mem_str (fst p) used) (combine refs outer)) -> tracked o = true -> In x (lets (snd (bindings s pos outer refs [] used)))).
Proof.
  induction refs as [|x refs IH]; intros outer s K Hlen; [split; [exact I|split; [intros ? []|intros ? ? []]]|].
  destruct outer as [|o outer]; [discriminate|]. cbn in Hlen. injection Hlen as Hlen. cbn [bindings tl combine filter fst]. change (mem_str x []) with false. cbn [orb].
  assert (KEY : forall s1 e, (e = [] /\ (mem_str x used = true -> tracked o = false)) \/ ((exists h, e = [Use (aname o) h; Let [x]] /\ h <> Moved) /\ mem_str x used = true) ->
    scoped K (snd (let (s2, e2) := bindings s1 pos outer refs [] used in (s2, e ++ e2))) /\
    (forall y, In y (lets (snd (let (s2, e2) := bindings s1 pos outer refs [] used in (s2, e ++ e2)))) -> In y used) /\
    (forall y o0, In (y, o0) (if mem_str x used then (x, o) :: filter (fun p => mem_str (fst p) used) (combine refs outer) else filter (fun p => mem_str (fst p) used) (combine refs outer)) ->
       tracked o0 = true -> In y (lets (snd (let (s2, e2) := bindings s1 pos outer refs [] used in (s2, e ++ e2)))))).
  { intros s1 e [[-> He]|[(h & -> & Hh) Hu]].
    - destruct (IH outer s1 K Hlen) as (A & B & C). destruct (bindings s1 pos outer refs [] used) as [s2 e2]. cbn [snd app] in *.
      split; [exact A|]. split; [exact B|]. intros y o0 Hin T. destruct (mem_str x used) eqn:Hu; [|exact (C y o0 Hin T)].
      destruct Hin as [Hin|Hin]; [injection Hin as <- <-; rewrite (He eq_refl) in T; discriminate|exact (C y o0 Hin T)].
    - destruct (IH outer s1 (K ++ [x]) Hlen) as (A & B & C). destruct (bindings s1 pos outer refs [] used) as [s2 e2]. cbn [snd app] in *.
      split; [cbn; split; [congruence|exact A]|]. split.
      + intros y Hy. cbn in Hy. destruct Hy as [<-|Hy]; [apply mem_str_In; exact Hu|exact (B y Hy)].
      + intros y o0 Hin T. rewrite Hu in Hin. cbn. destruct Hin as [Hin|Hin]; [injection Hin as <- <-; left; reflexivity|right; exact (C y o0 Hin T)]. }
  destruct (mem_str x used) eqn:Hu; cbn [negb]; [|apply (KEY s []); left; split; [reflexivity|discriminate]].
  assert (KEY' : forall s1 e, (e = [] /\ tracked o = false) \/ (exists h, e = [Use (aname o) h; Let [x]] /\ h <> Moved) -> 
    scoped K (snd (let (s2, e2) := bindings s1 pos outer refs [] used in (s2, e ++ e2))) /\
    (forall y, In y (lets (snd (let (s2, e2) := bindings s1 pos outer refs [] used in (s2, e ++ e2)))) -> In y used) /\
    (forall y o0, In (y, o0) ((x, o) :: filter (fun p => mem_str (fst p) used) (combine refs outer)) ->
       tracked o0 = true -> In y (lets (snd (let (s2, e2) := bindings s1 pos outer refs [] used in (s2, e ++ e2)))))).
  { intros s1 e [[H1 H2]|H]; apply KEY; [left; split; [exact H1|intros _; exact H2]|right; split; [exact H|reflexivity]]. }
  destruct (aty o) eqn:Ea.
  - destruct (use_owned s o pos) as [s1 c]. apply KEY'. right. exists Cloned. split; [reflexivity|discriminate].
  - apply KEY'. right. exists Copied. split; [reflexivity|discriminate].
  - apply (KEY' s []). left. split; [reflexivity|unfold tracked; rewrite Ea; reflexivity].
  - destruct (use_owned s o pos) as [s1 c]. apply KEY'. right. exists Cloned. split; [reflexivity|discriminate].
Qed.

(** * One iteration: the body *)
Definition body_code (s : scope) (pos : nat) (outer : list arg) (refs : list string) (b : cgraph) : scope * list stmt :=
  let (s1, e1) := bindings s pos outer refs (map aname (gins b)) (referenced b) in
  let (s3, e3) := forward_nodes (register_subgraph b pos s1) (S pos) (gnodes b) in (s3, e1 ++ e3).

(** The variables of the block around the loop: the inputs of the body. *)
Definition whole_frame (X : list string) (B : frame) : Prop :=
  (forall x, In x X -> B x = Some true) /\ (forall x, ~ In x X -> B x = None).
Lemma whole_fills X B : whole_frame X B -> fills B.
Proof. intros [H1 H2] x. destruct (in_dec string_dec x X); [right; auto|left; auto]. Qed.
Lemma fills_empty : fills empty.
Proof. intros x. left. reflexivity. Qed.

Definition body_locals (refs : list string) (outer : list arg) (b : cgraph) : list string := loop_locals refs outer b ++ flat_map node_locals (gnodes b).
Definition body_takes (refs : list string) (outer : list arg) (b : cgraph) (x : string) : nat :=
  (times x (filter tracked (map snd (loop_taken refs outer b))) + (fold_right (fun m k => takes m x + k) 0 (gnodes b) - later_uses b (gnodes b) x))%nat.

Lemma body_ok refs outer b s pos :
  length refs = length outer ->
  (let g := CGraph (gins b ++ loop_captured refs outer b) (gnodes b) (gouts b) in legal_level g /\ scalars_unread g) ->
  (forall n, In n (gnodes b) -> step n) ->
  (forall x o r, In (x, o) (loop_taken refs outer b) -> aty o = ShapeT r -> x = aname o) ->
  (forall o, In o outer -> tracked o = true -> exists r p, sget s (aname o) = Some (r, p) /\ (p <= pos)%nat) ->
  (forall x, In x (body_locals refs outer b) -> sget s x = None) ->
  (forall (f0 M B : frame) (rest : state), fills f0 -> fills M ->
     (forall x, In x (map aname (gins b)) -> f0 x = Some true \/ (f0 x = None /\ M x = None /\ B x = Some true)) ->
     (forall o, In o outer -> has (M :: B :: rest) (aname o) = true) ->
     exists fb B', runs (snd (body_code s pos outer refs b)) (f0 :: M :: B :: rest) (fb :: M :: B' :: rest) /\
       (forall x, B x = None <-> B' x = None) /\ (forall x, In x (map aname (gins b)) -> (fb x = None <-> f0 x = None)) /\
       (forall a, In a (gouts b) -> has (fb :: M :: B' :: rest) (aname a) = true) /\
       (forall a, In a (gouts b) -> tracked a = true -> ~ (In (aname a) (map aname (gins b)) /\ f0 (aname a) = None) -> fb (aname a) = Some true) /\
       (forall a b', In a (gouts b) -> In b' (gouts b) -> aname a = aname b' -> tracked a = tracked b') /\
       (forall x, ~ In x (map aname (gins b)) \/ f0 x <> None -> B' x = B x) /\
       (forall x, fb x <> None -> f0 x <> None \/ In x (mentioned b ++ flat_map out_of (gnodes b)))) /\
  spent_but s (fst (body_code s pos outer refs b)) (body_takes refs outer b) (body_locals refs outer b).
Proof.
  intros Hlen (L & U) Hst Hshape Hent Hloc.
  set (D := gins b ++ loop_captured refs outer b) in *.
  set (g := CGraph D (gnodes b) (gouts b)) in *.
  set (us := filter (fun y => negb (mem_str y (map aname (gins b)))) (referenced b)).
  assert (ET : filter (fun p => mem_str (fst p) us) (combine refs outer) = loop_taken refs outer b).
  { unfold loop_taken. apply filter_ext. intros [x o]. cbn [fst]. unfold us. apply Bool.eq_iff_eq_true.
    rewrite Bool.andb_true_iff, !mem_str_In, filter_In. reflexivity. }
  assert (BIND : forall f0 out, fills f0 -> (forall o, In o outer -> has out (aname o) = true) -> exists fb, exec (snd (bindings s pos outer refs [] us)) (f0 :: out) = Some (fb :: out) /\ fills fb /\
    (forall x, f0 x = Some true -> fb x = Some true) /\
    (forall x o, In (x, o) (loop_taken refs outer b) -> (forall r, aty o <> ShapeT r) -> fb x = Some true)).
  { intros f0 out F0 Ho. destruct (bindings_ok us out pos refs outer s f0 Hlen Ho F0) as (fb & Eb & Fb & Mb & Bb & _). rewrite ET in Bb. eauto. }
  assert (Sb : spent s (fst (bindings s pos outer refs [] us)) (fun x => times x (filter tracked (map snd (loop_taken refs outer b))))).
  { destruct (bindings_ok us [fun _ => Some true] pos refs outer s empty Hlen (fun _ _ => eq_refl) fills_empty) as (fb & _ & _ & _ & _ & S). rewrite ET in S. exact S. }
  destruct (bindings_scoped us pos refs outer s (map aname (gins b)) Hlen) as (SC1 & SC2 & SC3). rewrite ET in SC3.
  unfold body_code. rewrite (bindings_exclude (map aname (gins b)) (referenced b) pos refs outer s). fold us.
  destruct (bindings s pos outer refs [] us) as [s1 e1] eqn:E1. cbn [fst snd] in *.
  set (R := fun x => times x (filter is_tensor (gouts b))).
  set (s1' := reg_vars (gins b) pos s1).
  assert (E2 : register_subgraph b pos s1 = reg_returned (gouts b) (pos + length (gnodes b)) (reg_nodes (gnodes b) pos s1')).
  { unfold register_subgraph. rewrite reg_sub_nodes_eq. reflexivity. }
  rewrite E2. set (s2 := reg_returned _ _ _) in *.
  destruct (whole_names g L) as (SSA & NL & NLD). cbn [gins gnodes g] in SSA, NL, NLD.
  assert (NDG : NoDup (map aname (gins b))).
  { destruct (NoDup_app_parts _ _ SSA) as (N & _ & _). unfold D in N. rewrite map_app in N. exact (NoDup_app_l _ _ N). }
  assert (ORD : forall pre n post a, gnodes b = pre ++ n :: post -> In a (c_inputs n) -> registered a = true ->
            In (aname a) (map aname D ++ flat_map out_of pre)).
  { intros pre n post a E Ha Ra. apply (li_order g L pre n post a E). right. auto. }
  assert (CAP : forall c, In c (loop_captured refs outer b) -> exists o, In (aname c, o) (loop_taken refs outer b) /\ In o outer /\ aty c = aty o /\ tracked c = tracked o).
  { intros c Hc. unfold loop_captured in Hc. apply in_map_iff in Hc. destruct Hc as ([x o] & <- & Hp). exists o. cbn [aname fst snd aty].
    split; [exact Hp|]. split; [|split; reflexivity]. unfold loop_taken in Hp. apply filter_In in Hp. eapply in_combine_r. exact (proj1 Hp). }
  assert (LOC : forall x o, In (x, o) (loop_taken refs outer b) -> x <> aname o -> In x (body_locals refs outer b)).
  { intros x o Hp Hne. unfold body_locals, loop_locals. apply in_or_app. left. apply in_or_app. right. apply in_or_app. left. apply in_map_iff. exists (x, o). split; [reflexivity|]. apply filter_In. split; [exact Hp|].
    cbn [fst snd]. apply String.eqb_neq in Hne. rewrite Hne. reflexivity. }
  assert (OUTL : forall x, In x (flat_map out_of (gnodes b)) -> In x (body_locals refs outer b)) by (intros x Hx; apply in_or_app; left; apply in_or_app; right; apply in_or_app; right; exact Hx).
  assert (GINL : forall x, In x (map aname (gins b)) -> In x (body_locals refs outer b)) by (intros x Hx; apply in_or_app; left; apply in_or_app; left; exact Hx).
  assert (INL : forall x, In x (flat_map node_locals (gnodes b)) -> In x (body_locals refs outer b)) by (intros x Hx; apply in_or_app; right; exact Hx).
  assert (NOUT : forall c, In c D -> ~ In (aname c) (flat_map out_of (gnodes b))).
  { intros c Hc. apply (proj2 (proj2 (NoDup_app_parts _ _ SSA))). apply in_map. exact Hc. }
  assert (NCG : forall c, In c (loop_captured refs outer b) -> ~ In (aname c) (map aname (gins b))).
  { intros c Hc Hg. destruct (NoDup_app_parts _ _ SSA) as (N & _ & _). unfold D in N. rewrite map_app in N.
    apply (proj2 (proj2 (NoDup_app_parts _ _ N)) _ Hg). apply in_map. exact Hc. }
  assert (S1N : forall x, ~ In x (map aname (gins b)) -> sget s1' x = sget s1 x) by (intros x Hx; apply reg_vars_other; exact Hx).
  (* entries after registration *)
  assert (REG : forall x k n, nth_error (gnodes b) k = Some n -> (0 < nreg n x)%nat ->
     exists r p, sget s2 x = Some (r, p) /\ (p <= S pos + k)%nat /\ (sreg (gnodes b) x + R x <= r)%nat).
  { intros x k n Hk Hp. destruct (nreg_pos n x Hp) as (a & Ha & Ra & Ea).
    destruct (nth_error_split _ _ Hk) as (pre & post & Esp & Hl). 
    pose proof (ORD pre n post a Esp Ha Ra) as Ho. rewrite Ea in Ho. destruct (named_in _ _ _ Ho) as (c & Hc & Ec).
    assert (Hn : In n (gnodes b)) by (eapply nth_error_In; exact Hk).
    assert (Tc : tracked c = true).
    { rewrite <- (registered_tracked a Ra). symmetry. apply (li_kind g L n a c Hn); [right; left; apply filter_In; auto| |congruence].
      apply in_app_or in Hc. destruct Hc as [Hc|Hc]; [left; exact Hc|right]. apply in_flat_map in Hc. destruct Hc as (m & Hm & Hc).
      exists m. split; [|exact Hc]. cbn [gnodes g]. rewrite Esp. apply in_or_app. left; exact Hm. }
    assert (Hkl : (k < length (gnodes b))%nat) by (apply nth_error_Some; congruence).
    assert (OUTS : forall r p, sget (reg_nodes (gnodes b) pos s1') x = Some (r, p) -> (p <= pos + length (gnodes b))%nat -> sget s2 x = Some ((r + R x)%nat, p)).
    { intros r p E Hpp. unfold s2, R. apply reg_outs_known; assumption. }
    apply in_app_or in Hc. destruct Hc as [Hc|Hc].
    - pose proof (NOUT c Hc) as No. rewrite Ec in No. unfold D in Hc. apply in_app_or in Hc. destruct Hc as [Hc|Hc].
      + assert (Eg : sget s1' x = Some (0%nat, pos)).
        { rewrite <- Ec. apply reg_vars_new; auto. apply (proj2 Sb), Hloc, GINL, in_map. exact Hc. }
        exists (0 + sreg (gnodes b) x + R x)%nat, pos. split; [|lia]. apply OUTS; [|lia]. apply reg_nodes_known; auto.
      + pose proof (NCG c Hc) as Ng. rewrite Ec in Ng.
        destruct (CAP c Hc) as (o & Hpo & Hoo & _ & To). rewrite Ec in Hpo. rewrite Tc in To. symmetry in To.
        destruct (string_dec x (aname o)) as [Eo|Ne].
        * destruct (Hent o Hoo To) as (r & p & E & Hpp). rewrite <- Eo in E. destruct (proj1 Sb x r p E) as (r1 & Er1 & _).
          exists (r1 + sreg (gnodes b) x + R x)%nat, p. split; [|lia]. apply OUTS; [|lia]. apply reg_nodes_known; auto. rewrite S1N; assumption.
        * assert (En : sget s1' x = None) by (rewrite S1N by exact Ng; apply (proj2 Sb), Hloc; eapply LOC; [exact Hpo|exact Ne]).
          assert (Hsr : (0 < sreg (gnodes b) x)%nat) by (rewrite Esp, sreg_app; cbn [sreg]; lia).
          destruct (reg_nodes_first (gnodes b) pos s1' x En No Hsr) as (k0 & E & Hk0 & Hmin).
          exists (sreg (gnodes b) x + R x)%nat, (pos + k0)%nat. split; [apply OUTS; [exact E|lia]|]. specialize (Hmin k n Hk Hp). lia.
    - apply in_flat_map in Hc. destruct Hc as (m & Hm & Hc). apply In_nth_error in Hm. destruct Hm as [j Hj].
      assert (Hjk : (j < k)%nat) by (rewrite <- Hl; apply nth_error_Some; congruence).
      assert (Hj' : nth_error (gnodes b) j = Some m) by (rewrite Esp, nth_error_app1 by lia; exact Hj).
      assert (Hx : In x (flat_map out_of (gnodes b))) by (apply in_flat_map; exists m; split; [eapply nth_error_In; exact Hj'|rewrite <- Ec; apply in_map; exact Hc]).
      assert (Ng : ~ In x (map aname (gins b))).
      { intros Hg. apply (proj2 (proj2 (NoDup_app_parts _ _ SSA)) x); [|exact Hx]. unfold D. rewrite map_app. apply in_or_app. left; exact Hg. }
      assert (En : sget s1' (aname c) = None) by (rewrite Ec, S1N by exact Ng; apply (proj2 Sb), Hloc, OUTL; exact Hx).
      pose proof (reg_nodes_defined (map aname D) (gnodes b) SSA ORD pos s1' j m c Hj' Hc Tc En) as E. rewrite Ec in E.
      exists (sreg (gnodes b) x + R x)%nat, (S (pos + j)). split; [apply OUTS; [exact E|lia]|]. lia. }
  assert (DEF : forall a, In a (gouts b) -> exists c, aname c = aname a /\ tracked c = tracked a /\ In c (D ++ flat_map c_outputs (gnodes b))).
  { intros a Ha. destruct (li_outputs g L a Ha) as (c & Ec & Tc & Hc). exists c. split; [exact Ec|]. split; [exact Tc|].
    apply in_or_app. destruct Hc as [Hc|(m & Hm & Hc)]; [left; exact Hc|right]. apply in_flat_map. exists m. auto. }
  set (SO := scalar_out g).
  assert (UNUSED : forall x, ~ In x (map aname D ++ flat_map out_of (gnodes b)) -> sget s2 x = sget s1 x).
  { intros x Hx. destruct (level_unused g L x Hx) as [Z Z']. cbn [gnodes gouts g] in Z, Z'. rewrite in_app_iff in Hx.
    unfold s2. rewrite reg_returned_other by exact Z'. rewrite reg_nodes_other; [|tauto|exact Z]. apply S1N. intros Hg. apply Hx. left. unfold D. rewrite map_app. apply in_or_app. left; exact Hg. }
  assert (RUN : forall f rest, live D (f :: rest) (need (fun x => sreg (gnodes b) x + R x)%nat SO) ->
    exists f' rest', runs (snd (forward_nodes s2 (S pos) (gnodes b))) (f :: rest) (f' :: rest') /\ grown (trk D) (flat_map out_of (gnodes b)) (f :: rest) (f' :: rest') /\
    live (D ++ flat_map c_outputs (gnodes b)) (f' :: rest') (need R SO) /\
    spent_but s2 (fst (forward_nodes s2 (S pos) (gnodes b))) (fun x => fold_right (fun n k => takes n x + k)%nat 0%nat (gnodes b)) (flat_map node_locals (gnodes b))).
  { intros f rest Hf. apply (level_ok g L rest s2 f (S pos)).
    - exact Hst.
    - exact U.
    - intros x k n Hk Hp. destruct (REG x k n Hk Hp) as (r & p & E & Hpp & Hr). exists r, p. split; [exact E|]. split; [exact Hpp|]. intros _. exact Hr.
    - exact Hf.
    - intros x Hx. cbn [gnodes g] in Hx. rewrite (UNUSED x (NLD x Hx)). apply (proj2 Sb), Hloc, INL. exact Hx. }
  split.
  - intros f0 M B rest F0 FM HX Hout. destruct (BIND f0 _ F0 Hout) as (fb & Eb & Fb & Mb & Bb).
    set (st := fb :: M :: B :: rest) in *.
    assert (HD : forall c, In c D -> has st (aname c) = true).
    { intros c Hc. unfold D in Hc. apply in_app_or in Hc. destruct Hc as [Hc|Hc].
      - unfold st. destruct (HX _ (in_map aname _ _ Hc)) as [H|(_ & _ & H)]; [apply has_top, Mb; exact H|].
        apply fills_has; [exact Fb|]. apply fills_has; [exact FM|]. apply has_top. exact H.
      - destruct (CAP c Hc) as (o & Hpo & Hoo & Ty & To). pose proof (Bb (aname c) o Hpo) as Hnot.
        destruct (aty o) eqn:Ea; try (apply has_top, Hnot; intros r'; discriminate).
        rewrite (Hshape _ _ _ Hpo Ea). apply fills_has; [exact Fb|apply Hout; exact Hoo]. }
    destruct (RUN fb (M :: B :: rest)) as (fb' & st' & X2 & G2 & L2 & _); [intros c Hc; split; intros; apply HD; exact Hc|].
    destruct (forward_nodes s2 (S pos) (gnodes b)) as [s3 e3] eqn:E3. cbn [fst snd] in *.
    (* the block of the bindings *)
    destruct (scoped_frame e1 (map aname (gins b)) f0 M B rest st SC1) as (fb0 & B0 & E0 & _ & Hfb0 & _).
    { intros x Hx. destruct (HX x Hx) as [H|(_ & H1 & H2)]; [left; congruence|right; split; congruence]. }
    { exact Eb. }
    injection E0 as <- <-.
    (* what the nodes change *)
    assert (TRK : forall x, trk D x -> fb x = None -> In x (map aname (gins b)) /\ f0 x = None /\ M x = None /\ B x = Some true).
    { intros x (c & Hc & T & Ec) Hn. unfold D in Hc. apply in_app_or in Hc. destruct Hc as [Hc|Hc].
      - assert (Hg : In x (map aname (gins b))) by (rewrite <- Ec; apply in_map; exact Hc). split; [exact Hg|].
        destruct (HX x Hg) as [H|H]; [rewrite (Mb x H) in Hn; discriminate|exact H].
      - exfalso. destruct (CAP c Hc) as (o & Hpo & _ & _ & To). rewrite Ec in Hpo. rewrite (Bb x o Hpo) in Hn; [discriminate|].
        intros r' Ea. rewrite To in T. unfold tracked in T. rewrite Ea in T. discriminate. }
    destruct st' as [|M' [|B' rest']]; [destruct G2 as (_ & _ & [])|destruct G2 as (_ & _ & _ & _ & [])|].
    destruct G2 as (Hfb2 & _ & (HM1 & HM2 & HB' & HB2 & HR)).
    assert (EM : forall x, M' x = M x).
    { intros x. destruct (M x) eqn:Em; [|apply HM1; exact Em]. rewrite <- Em. apply HM2. intros [Ht Hn]. destruct (TRK x Ht Hn) as (_ & _ & H & _). congruence. }
    assert (HE : forall x, ~ In x (map aname (gins b)) \/ f0 x <> None -> B' x = B x).
    { intros x Hx. apply HB2. intros [[Ht Hn] _]. destruct (TRK x Ht Hn) as (H1 & H2 & _). tauto. }
    apply evolve_none in HR; [|intros x [[[Ht Hn] _] Hb]; destruct (TRK x Ht Hn) as (_ & _ & _ & H); congruence].
    assert (Hfb : forall x, fb' x = None <-> (f0 x = None /\ ~ In x (lets e1 ++ flat_map out_of (gnodes b)))).
    { intros x. rewrite Hfb2, Hfb0, in_app_iff. tauto. }
    assert (EQ : same (fb' :: M' :: B' :: rest') (fb' :: M :: B' :: rest)).
    { constructor; [reflexivity|]. constructor; [exact EM|]. constructor; [reflexivity|apply same_sym; exact HR]. }
    assert (XX : runs (e1 ++ e3) (f0 :: M :: B :: rest) (fb' :: M :: B' :: rest)).
    { eapply runs_app; [apply runs_of; exact Eb|]. eapply runs_same; [exact X2|exact EQ]. }
    assert (OUT : forall a, In a (gouts b) -> has (fb' :: M :: B' :: rest) (aname a) = true).
    { intros a Ha. rewrite <- (same_has _ _ (aname a) EQ). destruct (DEF a Ha) as (c & Ec & Tc & Hc). destruct (L2 c Hc) as [P Q]. rewrite Ec, Tc in *.
      destruct (tracked a) eqn:T; [|apply P; reflexivity]. apply Q; [reflexivity|].
      unfold tracked in T. destruct (aty a) eqn:Ea; try discriminate.
      * right. exists a. split; [exact Ha|]. split; [unfold is_scalar_tensor; rewrite Ea; reflexivity|reflexivity].
      * left. unfold R. apply times_pos, in_map, filter_In. split; [exact Ha|]. unfold is_tensor. rewrite Ea. reflexivity. }
    exists fb', B'. split; [exact XX|]. split; [exact HB'|]. split; [|split; [exact OUT|split; [|split; [|split; [exact HE|]]]]].
    + intros x Hx. rewrite Hfb. split; [tauto|]. intros H0. split; [exact H0|]. rewrite in_app_iff. intros [H|H].
      * apply SC2 in H. unfold us in H. apply filter_In in H. destruct H as [_ H]. apply Bool.negb_true_iff in H.
        apply mem_str_In in Hx. congruence.
      * apply (proj2 (proj2 (NoDup_app_parts _ _ SSA)) x); [|exact H]. unfold D. rewrite map_app. apply in_or_app. left; exact Hx.
    + intros a Ha T Hg. pose proof (OUT a Ha) as Hh. assert (Hd : fb' (aname a) <> None).
      { rewrite Hfb. intros [H0 Hno]. apply Hno. rewrite in_app_iff. destruct (DEF a Ha) as (c & Ec & Tc & Hc). rewrite <- Ec.
        apply in_app_or in Hc. destruct Hc as [Hc|Hc].
        - unfold D in Hc. apply in_app_or in Hc. destruct Hc as [Hc|Hc]; [exfalso; apply Hg; split; [rewrite <- Ec; apply in_map; exact Hc|exact H0]|left].
          destruct (CAP c Hc) as (o & Hpo & _ & _ & To). apply (SC3 (aname c) o Hpo). congruence.
        - right. apply in_flat_map in Hc. destruct Hc as (m & Hm & Hc). apply in_flat_map. exists m. split; [exact Hm|apply in_map; exact Hc]. }
      cbn in Hh. destruct (fb' (aname a)) as [v|]; [rewrite Hh; reflexivity|congruence].
    + intros a a' Ha Ha' En. destruct (DEF a Ha) as (c & Ec & Tc & Hc). destruct (DEF a' Ha') as (c' & Ec' & Tc' & Hc').
      assert (c = c'); [|congruence]. rewrite <- names_flat in SSA. apply (NoDup_map_inj aname _ c c' SSA); [exact Hc|exact Hc'|congruence].
    + intros x Hx. destruct (f0 x) eqn:E0; [left; discriminate|right]. destruct (in_dec string_dec x (lets e1 ++ flat_map out_of (gnodes b))) as [Hi|Hi]; [|exfalso; apply Hx, Hfb; auto].
      rewrite in_app_iff in Hi. apply in_or_app. destruct Hi as [Hi|Hi]; [left|right; exact Hi].
      apply SC2 in Hi. unfold us in Hi. apply filter_In in Hi. exact (proj1 Hi).
  - destruct (RUN (fun _ => Some true) []) as (f2 & rr2 & _ & _ & _ & S2); [intros c Hc; split; reflexivity|].
    destruct (forward_nodes s2 (S pos) (gnodes b)) as [s3 e3] eqn:E3. cbn [fst snd] in *.
    (* names that are not in the body *)
    assert (QUIET : forall x, ~ In x (map aname (gins b)) -> ~ In x (flat_map out_of (gnodes b)) -> (forall o, In (x, o) (loop_taken refs outer b) -> tracked o = false) ->
              sget s2 x = sget s1 x /\ sreg (gnodes b) x = 0%nat /\ R x = 0%nat).
    { intros x Ng No Hc.
      assert (Z : sreg (gnodes b) x = 0%nat).
      { destruct (sreg (gnodes b) x) as [|t] eqn:Et; [reflexivity|]. exfalso.
        destruct (sreg_pos (gnodes b) x ltac:(lia)) as (pre & n & post & Esp & Hp). destruct (nreg_pos n x Hp) as (a & Ha & Ra & Ea).
        pose proof (ORD pre n post a Esp Ha Ra) as Ho. rewrite Ea in Ho. apply in_app_or in Ho. destruct Ho as [Ho|Ho].
        - apply in_map_iff in Ho. destruct Ho as (c & Ec & Hcc).
          assert (Hcc' : In c (loop_captured refs outer b)).
          { unfold D in Hcc. apply in_app_or in Hcc. destruct Hcc as [Hcc|Hcc]; [exfalso; apply Ng; rewrite <- Ec; apply in_map; exact Hcc|exact Hcc]. }
          destruct (CAP c Hcc') as (o & Hpo & _ & _ & To). rewrite Ec in Hpo. specialize (Hc o Hpo).
          assert (tracked a = tracked c).
          { assert (Hn : In n (gnodes b)) by (rewrite Esp; apply in_or_app; right; left; reflexivity).
            apply (li_kind g L n a c Hn); [right; left; apply filter_In; auto|left; exact Hcc|congruence]. }
          rewrite (registered_tracked a Ra) in H. congruence.
        - apply No. rewrite Esp, flat_map_app. apply in_or_app. left; exact Ho. }
      cut (R x = 0%nat); [intros Z'; split; [|split; [exact Z|exact Z']]; unfold s2; rewrite reg_returned_other by exact Z'; rewrite reg_nodes_other by assumption; apply S1N; exact Ng|].
      unfold R. destruct (times x (filter is_tensor (gouts b))) as [|t] eqn:Et; [reflexivity|]. exfalso.
      assert (Hin : In x (map aname (filter is_tensor (gouts b)))) by (apply (count_occ_In string_dec); unfold times in Et; rewrite Et; lia).
      apply in_map_iff in Hin. destruct Hin as (a & Ea & Ha). apply filter_In in Ha. destruct Ha as [Ha Ta].
      destruct (DEF a Ha) as (c & Ec & Tc & Hcc). assert (Taa : tracked a = true) by (unfold is_tensor in Ta; unfold tracked; destruct (aty a); congruence).
      apply in_app_or in Hcc. destruct Hcc as [Hcc|Hcc].
      - unfold D in Hcc. apply in_app_or in Hcc. destruct Hcc as [Hcc|Hcc]; [apply Ng; rewrite <- Ea, <- Ec; apply in_map; exact Hcc|].
        destruct (CAP c Hcc) as (o & Hpo & _ & _ & To). rewrite Ec, Ea in Hpo. specialize (Hc o Hpo). congruence.
      - apply No. apply in_flat_map in Hcc. destruct Hcc as (m & Hm & Hcc). apply in_flat_map. exists m. split; [exact Hm|]. rewrite <- Ea, <- Ec. apply in_map. exact Hcc. }
    assert (SPLIT : forall x, (exists o, In (x, o) (loop_taken refs outer b) /\ tracked o = true) \/ (forall o, In (x, o) (loop_taken refs outer b) -> tracked o = false)).
    { intros x. clear. induction (loop_taken refs outer b) as [|[y o] l IH]; [right; intros o []|].
      destruct IH as [(o' & Ho & T)|IH]; [left; exists o'; split; [right; exact Ho|exact T]|].
      destruct (string_dec x y) as [<-|Hne].
      - destruct (tracked o) eqn:T; [left; exists o; split; [left; reflexivity|exact T]|right].
        intros o' [H|H]; [congruence|exact (IH o' H)].
      - right. intros o' [H|H]; [congruence|exact (IH o' H)]. }
    assert (TNG : forall x o, In (x, o) (loop_taken refs outer b) -> ~ In x (map aname (gins b))).
    { intros x o H. unfold loop_taken in H. apply filter_In in H. destruct H as [_ H]. cbn [fst] in H. apply Bool.andb_true_iff in H. destruct H as [_ H].
      apply Bool.negb_true_iff in H. intros Hg. apply mem_str_In in Hg. congruence. }
    split.
    + intros x r p E. destruct (proj1 Sb x r p E) as (r1 & Er1 & Hr1).
      assert (No : ~ In x (flat_map out_of (gnodes b))) by (intros Hx; rewrite (Hloc x (OUTL x Hx)) in E; discriminate).
      assert (Ng : ~ In x (map aname (gins b))) by (intros Hx; rewrite (Hloc x (GINL x Hx)) in E; discriminate).
      assert (Hs2 : exists r2, sget s2 x = Some (r2, p) /\ (r1 + (sreg (gnodes b) x + R x) <= r2)%nat).
      { destruct (SPLIT x) as [(o & Ho & To)|Hno].
        - assert (Exo : x = aname o).
          { destruct (string_dec x (aname o)) as [Ex|Ne]; [exact Ex|]. rewrite (Hloc x (LOC x o Ho Ne)) in E. discriminate. }
          assert (Hoo : In o outer) by (unfold loop_taken in Ho; apply filter_In in Ho; eapply in_combine_r; exact (proj1 Ho)).
          destruct (Hent o Hoo To) as (r' & p' & E' & Hp'). rewrite <- Exo, E in E'. injection E' as <- <-.
          exists (r1 + sreg (gnodes b) x + R x)%nat. split; [|lia]. unfold s2, R. apply reg_outs_known; [|lia]. apply reg_nodes_known; auto. rewrite S1N; assumption.
        - destruct (QUIET x Ng No Hno) as (Eq & Z & Z'). exists r1. rewrite Eq. split; [exact Er1|lia]. }
      destruct Hs2 as (r2 & Er2 & Hr2). destruct (proj1 S2 x r2 p Er2) as (r3 & Er3 & Hr3). exists r3. split; [exact Er3|].
      unfold body_takes, later_uses. rewrite times_flat. unfold R, is_tensor in Hr2. cbv beta in Hr3. lia.
    + intros x E Hx. apply (proj2 S2); [|intros H; apply Hx, INL, H].
      assert (No : ~ In x (flat_map out_of (gnodes b))) by (intros H; apply Hx, OUTL, H).
      assert (Ng : ~ In x (map aname (gins b))) by (intros H; apply Hx, GINL, H).
      destruct (SPLIT x) as [(o & Ho & To)|Hno].
      * exfalso. destruct (string_dec x (aname o)) as [Ex|Ne]; [|apply Hx; exact (LOC x o Ho Ne)].
        assert (Hoo : In o outer) by (unfold loop_taken in Ho; apply filter_In in Ho; eapply in_combine_r; exact (proj1 Ho)).
        destruct (Hent o Hoo To) as (r' & p' & E' & _). rewrite <- Ex in E'. congruence.
      * destruct (QUIET x Ng No Hno) as [Eq _]. rewrite Eq. apply (proj2 Sb). exact E.
Qed.

(** * One iteration: the new values *)
Definition carry (vo : string * arg) : list stmt := if String.eqb (fst vo) (aname (snd vo)) then [] else [bare (snd vo); Assign (fst vo)].

Lemma put_inner (fb B : frame) (rest : state) v b : fb v = None -> B v <> None -> put (fb :: empty :: B :: rest) v b = fb :: empty :: set B v b :: rest.
Proof. intros H1 H2. cbn. rewrite H1. destruct (B v); [reflexivity|congruence]. Qed.
Lemma has_inner (fb B : frame) (rest : state) v : fb v = None -> B v <> None -> has (fb :: empty :: B :: rest) v = true -> B v = Some true.
Proof. intros H1 H2 H. cbn in H. rewrite H1 in H. destruct (B v); [rewrite H; reflexivity|congruence]. Qed.

Lemma carry_ok X (rest : state) : forall l (fb B : frame),
  (forall x, In x X -> fb x = None /\ B x <> None) ->
  (forall v o, In (v, o) l -> In v X) ->
  (forall v o, In (v, o) l -> has (fb :: empty :: B :: rest) (aname o) = true) ->
  (forall v o, In (v, o) l -> tracked o = true -> v <> aname o -> fb (aname o) = Some true) ->
  (forall v o v' o', In (v, o) l -> In (v', o') l -> aname o = aname o' -> tracked o = tracked o') ->
  NoDup (map aname (filter tracked (map snd l))) ->
  exists fb' B', exec (flat_map carry l) (fb :: empty :: B :: rest) = Some (fb' :: empty :: B' :: rest) /\
    (forall x, B x = Some true -> B' x = Some true) /\ (forall v o, In (v, o) l -> B' v = Some true) /\
    (forall x, B x = None <-> B' x = None) /\ (forall x, In x X -> fb' x = None).
Proof.
  induction l as [|[v o] l IH]; intros fb B HX Hv Hh Ht Hk Hn.
  - exists fb, B. split; [reflexivity|]. split; [auto|]. split; [intros ? ? []|]. split; [tauto|]. intros x Hx. exact (proj1 (HX x Hx)).
  - assert (Hv' : forall v o, In (v, o) l -> In v X) by (intros; eapply Hv; right; eassumption).
    assert (Hk' : forall v o v' o', In (v, o) l -> In (v', o') l -> aname o = aname o' -> tracked o = tracked o') by (intros; eapply Hk; [right; eassumption|right; eassumption|assumption]).
    assert (Hn' : NoDup (map aname (filter tracked (map snd l)))) by (cbn in Hn; destruct (tracked o); [inversion Hn; assumption|exact Hn]).
    destruct (HX v (Hv v o (or_introl eq_refl))) as [Hfv HBv].
    cbn [flat_map]. unfold carry at 1. cbn [fst snd]. destruct (String.eqb_spec v (aname o)) as [Ev|Ev].
    + destruct (IH fb B HX Hv') as (fb' & B' & X1 & M & A & Dm & N); auto; [intros v0 o0 H; apply (Hh v0 o0); right; exact H|intros v0 o0 H; apply (Ht v0 o0); right; exact H|].
      exists fb', B'. split; [exact X1|]. split; [exact M|]. split; [|split; [exact Dm|exact N]].
      intros v0 o0 [H|H]; [|exact (A v0 o0 H)]. injection H as <- <-. apply M. apply (has_inner fb B rest); auto. pose proof (Hh v o (or_introl eq_refl)) as Hhv. rewrite <- Ev in Hhv. exact Hhv.
    + pose proof (Hh v o (or_introl eq_refl)) as Ho.
      set (fb1 := if tracked o then set fb (aname o) false else fb).
      assert (X0 : exec [bare o; Assign v] (fb :: empty :: B :: rest) = Some (fb1 :: empty :: set B v true :: rest)).
      { cbn [exec]. unfold bare. cbn [exec1]. rewrite Ho. cbv beta iota. unfold fb1. destruct (tracked o) eqn:T; cbv beta iota.
        - pose proof (Ht v o (or_introl eq_refl) T Ev) as Hfo. 
          assert (Ep : put (fb :: empty :: B :: rest) (aname o) false = set fb (aname o) false :: empty :: B :: rest) by (cbn [put]; rewrite Hfo; reflexivity).
          rewrite Ep. f_equal. apply put_inner; [|exact HBv]. apply set_dom. split; [exact Hfv|]. congruence.
        - rewrite put_inner by assumption. reflexivity. }
      assert (Hne : forall v0 o0, In (v0, o0) l -> tracked o = true -> aname o <> aname o0).
      { intros v0 o0 H T E. assert (T0 : tracked o0 = true) by (rewrite <- (Hk v o v0 o0); [exact T|left; reflexivity|right; exact H|exact E]).
        cbn in Hn. rewrite T in Hn. inversion Hn as [|? ? N1 _]; subst. apply N1. rewrite E. apply in_map, filter_In. split; [|exact T0].
        apply in_map_iff. exists (v0, o0). auto. }
      assert (HX' : forall x, In x X -> fb1 x = None /\ set B v true x <> None).
      { intros x Hx. destruct (HX x Hx) as [P Q]. split; [|rewrite set_dom; tauto]. unfold fb1. destruct (tracked o) eqn:T; [|exact P].
        apply set_dom. split; [exact P|]. intros E. rewrite <- E, (Ht v o (or_introl eq_refl) T Ev) in P. discriminate. }
      destruct (IH fb1 (set B v true) HX' Hv') as (fb' & B' & X1 & M & A & Dm & N); auto.
      * intros v0 o0 H. pose proof (Hh v0 o0 (or_intror H)) as H0.
        assert (E1 : has (fb1 :: empty :: B :: rest) (aname o0) = true).
        { unfold fb1. destruct (tracked o) eqn:T; [|exact H0]. rewrite has_set_other; [exact H0|]. intros E. exact (Hne v0 o0 H eq_refl (eq_sym E)). }
        cbn in E1 |- *. destruct (fb1 (aname o0)); [exact E1|]. unfold set. destruct (String.eqb v (aname o0)); [reflexivity|exact E1].
      * intros v0 o0 H T0 E0. pose proof (Ht v0 o0 (or_intror H) T0 E0) as H0. unfold fb1. destruct (tracked o) eqn:T; [|exact H0].
        unfold set. destruct (String.eqb_spec (aname o) (aname o0)); [exfalso; exact (Hne v0 o0 H eq_refl e)|exact H0].
      * exists fb', B'. split; [|split; [|split; [|split; [|exact N]]]].
        -- rewrite exec_app, X0. exact X1.
        -- intros x Hx. apply M. unfold set. destruct (String.eqb v x); [reflexivity|exact Hx].
        -- intros v0 o0 [H|H]; [|exact (A v0 o0 H)]. injection H as <- <-. apply M. unfold set. rewrite String.eqb_refl. reflexivity.
        -- intros x. rewrite <- Dm, set_dom. split; [|tauto]. intros H. split; [exact H|]. intros ->. congruence.
Qed.

Definition turn_code (ebody : list stmt) (nv : nat) (b : cgraph) : list stmt :=
  let vars := map aname (skipn 2 (gins b)) in
  let cond_in := nth 1 (map aname (gins b)) ""%string in
  ebody ++ map (fun o => Use (aname o) Copied) (skipn (1 + nv) (gouts b)) ++
  flat_map carry (combine vars (firstn nv (skipn 1 (gouts b)))) ++
  match gouts b with
  | c :: _ => if String.eqb cond_in (aname c) then [] else [bare c; Assign cond_in]
  | [] => []
  end ++ [Assign (nth 0 (map aname (gins b)) ""%string)].

Lemma exec_copied l st : (forall a, In a l -> has st (aname a) = true) -> exec (map (fun o => Use (aname o) Copied) l) st = Some st.
Proof.
  induction l as [|a l IH]; intros H; [reflexivity|]. cbn [map exec exec1]. rewrite H by (left; reflexivity). apply IH. intros; apply H; right; assumption.
Qed.
Lemma combine_snd {A B} (l : list A) : forall (m : list B), length l = length m -> map snd (combine l m) = m.
Proof. induction l as [|x l IH]; intros [|y m] H; try discriminate; [reflexivity|]. cbn. f_equal. apply IH. injection H as H. exact H. Qed.
Lemma combine_nth_error {A B} (l : list A) : forall (m : list B) x y, In (x, y) (combine l m) -> exists k, nth_error l k = Some x /\ nth_error m k = Some y.
Proof.
  induction l as [|a l IH]; intros [|b m] x y H; try destruct H.
  - injection H as <- <-. exists 0%nat. auto.
  - destruct (IH m x y H) as (k & E1 & E2). exists (S k). auto.
Qed.

Lemma nth_error_combine {A B} (l : list A) : forall (m : list B) k x y, nth_error l k = Some x -> nth_error m k = Some y -> In (x, y) (combine l m).
Proof.
  induction l as [|a l IH]; intros [|b m] [|k] x y H1 H2; try discriminate; cbn in *; [left; congruence|right; exact (IH m k x y H1 H2)].
Qed.

Lemma turn_ok count cond init outer refs b s pos :
  legal_loop count cond init outer refs b -> (forall n, In n (gnodes b) -> step n) -> NoDup (map aname (gins b)) ->
  (forall o, In o outer -> tracked o = true -> exists r p, sget s (aname o) = Some (r, p) /\ (p <= pos)%nat) ->
  (forall x, In x (body_locals refs outer b) -> sget s x = None) ->
  forall B rest, whole_frame (map aname (gins b)) B -> (forall o, In o outer -> has (empty :: B :: rest) (aname o) = true) ->
     exists fb B', runs (turn_code (snd (body_code s pos outer refs b)) (length init) b) (empty :: empty :: B :: rest) (fb :: empty :: B' :: rest) /\
       whole_frame (map aname (gins b)) B'.
Proof.
  intros LL Hst ND Hent Hloc B rest HB Hout.
  destruct (body_ok refs outer b s pos (ll_refs _ _ _ _ _ _ LL) (ll_body _ _ _ _ _ _ LL) Hst (ll_shape _ _ _ _ _ _ LL) Hent Hloc) as [RUN _].
  destruct (RUN empty empty B rest fills_empty fills_empty) as (fb & B1 & X1 & HD & Hfx' & Hha & Hft' & Hk & _).
  { intros x Hx. right. split; [reflexivity|]. split; [reflexivity|exact (proj1 HB x Hx)]. }
  { exact Hout. }
  assert (Hfx : forall x, In x (map aname (gins b)) -> fb x = None) by (intros x Hx; apply Hfx'; [exact Hx|reflexivity]).
  assert (Hft : forall a, In a (gouts b) -> tracked a = true -> ~ In (aname a) (map aname (gins b)) -> fb (aname a) = Some true) by (intros a Ha T Hn; apply Hft'; [exact Ha|exact T|tauto]).
  clear RUN Hfx' Hft'.
  set (ebody := snd (body_code s pos outer refs b)) in *.
  pose proof (ll_ins _ _ _ _ _ _ LL) as Li. pose proof (ll_outs _ _ _ _ _ _ LL) as Lo. pose proof (ll_native _ _ _ _ _ _ LL) as Nat_.
  pose proof (ll_once _ _ _ _ _ _ LL) as Once. pose proof (ll_place _ _ _ _ _ _ LL) as Place.
  destruct (gins b) as [|gi [|gc vs]] eqn:Eg; [discriminate|discriminate|]. cbn [length] in Li. assert (Lv : length vs = length init) by lia.
  destruct (gouts b) as [|co os] eqn:Eo; [cbn in Lo; lia|]. cbn [length] in Lo.
  set (X := map aname (gi :: gc :: vs)) in *.
  set (cs := firstn (length init) os).
  assert (Lc : length (map aname vs) = length cs) by (unfold cs; rewrite map_length, firstn_length; lia).
  set (l := combine (map aname vs) cs ++ [(aname gc, co)]).
  assert (El : turn_code ebody (length init) b = ebody ++ map (fun o => Use (aname o) Copied) (skipn (1 + length init) (co :: os)) ++ flat_map carry l ++ [Assign (aname gi)]).
  { unfold turn_code. rewrite Eg, Eo. cbn [map nth skipn]. unfold l. rewrite flat_map_app. cbn [flat_map]. unfold carry at 3. cbn [fst snd].
    rewrite app_nil_r, <- !app_assoc. reflexivity. }
  assert (Hcs : forall o, In o cs -> In o (co :: os)).
  { intros o Ho. right. unfold cs in Ho. rewrite <- (firstn_skipn (length init) os). apply in_or_app. left; exact Ho. }
  assert (Hl : forall v o, In (v, o) l -> In v X /\ In o (co :: os)).
  { intros v o H. unfold l in H. apply in_app_or in H. destruct H as [H|[H|[]]].
    - split; [unfold X; cbn; right; right; eapply in_combine_l; exact H|]. apply Hcs. eapply in_combine_r. exact H.
    - injection H as <- <-. split; [right; left; reflexivity|left; reflexivity]. }
  destruct (carry_ok X rest l fb B1) as (fb2 & B2 & X2 & M2 & A2 & D2 & N2).
  - intros x Hx. split; [apply Hfx; exact Hx|]. rewrite <- HD, (proj1 HB x Hx). discriminate.
  - intros v o H. exact (proj1 (Hl v o H)).
  - intros v o H. apply Hha. exact (proj2 (Hl v o H)).
  - intros v o H T Hne. apply Hft; [exact (proj2 (Hl v o H))|exact T|]. intros Hx. apply Hne.
    unfold l in H. apply in_app_or in H. destruct H as [H|[H|[]]].
    + destruct (combine_nth_error _ _ _ _ H) as (k & E1 & E2).
      pose proof (Place (S k) o) as P. cbn [firstn] in P. unfold cs in E2. specialize (P E2 T Hx). unfold X in P. cbn [map nth_error] in P. congruence.
    + injection H as <- <-. pose proof (Place 0%nat co eq_refl T Hx) as P. unfold X in P. cbn [map nth_error] in P. congruence.
  - intros v o v' o' H H'. apply Hk; [exact (proj2 (Hl v o H))|exact (proj2 (Hl v' o' H'))].
  - unfold l. rewrite map_app, combine_snd by exact Lc. cbn [map snd]. rewrite filter_app, map_app. cbn [firstn Nat.add] in Once. fold cs in Once.
    cbn [filter] in Once |- *. destruct (tracked co).
    + cbn [map] in Once |- *. inversion Once as [|? ? O1 O2]; subst. apply NoDup_app_intro_; [exact O2|constructor; [intros []|constructor]|].
      intros x Hx [<-|[]]. exact (O1 Hx).
    + cbn [map]. rewrite app_nil_r. exact Once.
  - exists fb2, (set B2 (aname gi) true). split.
    + rewrite El. eapply runs_app; [exact X1|]. apply runs_of. rewrite exec_app, exec_copied.
      2:{ intros a Ha. apply Hha. rewrite <- (firstn_skipn (1 + length init) (co :: os)). apply in_or_app. right; exact Ha. }
      rewrite exec_app. match goal with |- match ?e with _ => _ end = _ => replace e with (Some (fb2 :: empty :: B2 :: rest)) by (symmetry; exact X2) end.
      cbn [exec exec1]. f_equal. apply put_inner; [apply N2; left; reflexivity|].
      rewrite <- D2, <- HD, (proj1 HB); [discriminate|left; reflexivity].
    + split.
      * intros x Hx. unfold set. destruct (String.eqb_spec (aname gi) x) as [|Hne]; [reflexivity|]. destruct Hx as [Hx|[Hx|Hx]]; [contradiction| |].
        -- subst x. apply (A2 (aname gc) co). unfold l. apply in_or_app. right; left; reflexivity.
        -- apply In_nth_error in Hx. destruct Hx as [k Hk']. fold (map aname vs) in Hk'.
           assert (Hlt : (k < length cs)%nat) by (rewrite <- Lc; apply nth_error_Some; congruence).
           destruct (nth_error cs k) as [o|] eqn:Eo'; [|apply nth_error_None in Eo'; lia].
           apply (A2 x o). unfold l. apply in_or_app. left. exact (nth_error_combine _ _ k x o Hk' Eo').
      * intros x Hx. apply set_dom. split; [apply D2, HD, (proj2 HB); exact Hx|]. intros E. apply Hx. left. exact E.
Qed.

(** * The start *)
Lemma init_ok X : forall l (B : frame) (st : state), fills B -> (forall x, B x <> None -> In x X) ->
  (forall v a, In (v, a) l -> In v X) ->
  (forall v a, In (v, a) l -> tracked a = true -> ~ In (aname a) X) ->
  (forall v a, In (v, a) l -> has st (aname a) = true) ->
  (forall v a v' a', In (v, a) l -> In (v', a') l -> aname a = aname a' -> tracked a = tracked a') ->
  NoDup (map aname (filter tracked (map snd l))) ->
  exists B' st', exec (flat_map (fun vi => [bare (snd vi); Let [fst vi]]) l) (B :: st) = Some (B' :: st') /\ fills B' /\ (forall x, B' x <> None -> In x X) /\
    (forall x, B x = Some true -> B' x = Some true) /\ (forall v a, In (v, a) l -> B' v = Some true) /\
    evolve (fun x => In x (map aname (filter tracked (map snd l)))) st st' /\
    (forall y, ~ In y (map aname (filter tracked (map snd l))) -> has st' y = has st y).
Proof.
  induction l as [|[v a] l IH]; intros B st HF HX Hv Ht Hu Hk Hn.
  - exists B, st. split; [reflexivity|]. split; [exact HF|]. split; [exact HX|]. split; [auto|]. split; [intros ? ? []|]. split; [apply evolve_refl|reflexivity].
  - set (st1 := if tracked a then put st (aname a) false else st).
    pose proof (Hu v a (or_introl eq_refl)) as Hh.
    assert (X0 : exec [bare a; Let [v]] (B :: st) = Some (set B v true :: st1)).
    { cbn [exec]. unfold bare. cbn [exec1]. rewrite (fills_has B st _ HF Hh). cbv beta iota. unfold st1. destruct (tracked a) eqn:T; cbv beta iota; [|reflexivity].
      pose proof (Ht v a (or_introl eq_refl) T) as Hx. assert (HB : B (aname a) = None) by (destruct (B (aname a)) eqn:E; [exfalso; apply Hx, HX; congruence|reflexivity]).
      cbn [put]. rewrite HB. reflexivity. }
    assert (Hne : forall v0 a0, In (v0, a0) l -> tracked a = true -> aname a <> aname a0).
    { intros v0 a0 H T E. assert (T0 : tracked a0 = true) by (rewrite <- (Hk v a v0 a0); [exact T|left; reflexivity|right; exact H|exact E]).
      cbn in Hn. rewrite T in Hn. inversion Hn as [|? ? N1 _]; subst. apply N1. rewrite E. apply in_map, filter_In. split; [|exact T0].
      apply in_map_iff. exists (v0, a0). auto. }
    assert (F1 : forall y, (tracked a = true -> aname a <> y) -> has st1 y = has st y).
    { intros y Hy. unfold st1. destruct (tracked a) eqn:T; [|reflexivity]. rewrite has_put by exact Hh. destruct (String.eqb_spec (aname a) y); [exfalso; exact (Hy eq_refl e)|reflexivity]. }
    assert (V1 : evolve (fun x => In x (map aname (filter tracked (map snd ((v, a) :: l))))) st st1).
    { unfold st1. cbn [map snd filter]. destruct (tracked a); [apply evolve_put; left; reflexivity|apply evolve_refl]. }
    destruct (IH (set B v true) st1) as (B' & st' & X1 & F' & D' & M' & A' & V' & K').
    + apply fills_set. exact HF.
    + intros x Hx. rewrite set_dom in Hx. destruct (string_dec v x) as [<-|Hvx]; [exact (Hv v a (or_introl eq_refl))|]. apply HX. tauto.
    + intros v0 a0 H. apply (Hv v0 a0). right; exact H.
    + intros v0 a0 H T. apply (Ht v0 a0); [right; exact H|exact T].
    + intros v0 a0 H. rewrite F1 by (apply (Hne v0 a0); exact H). apply (Hu v0 a0). right; exact H.
    + intros v0 a0 v1 a1 H H'. apply (Hk v0 a0 v1 a1); right; assumption.
    + cbn in Hn. destruct (tracked a); [inversion Hn; assumption|exact Hn].
    + exists B', st'. split; [|split; [exact F'|split; [exact D'|split; [|split; [|split]]]]].
      * cbn [flat_map]. rewrite exec_app. cbn [fst snd]. match goal with |- match ?e with _ => _ end = _ => replace e with (Some (set B v true :: st1)) by (symmetry; exact X0) end. exact X1.
      * intros x Hx. apply M'. unfold set. destruct (String.eqb v x); [reflexivity|exact Hx].
      * intros v0 a0 [H|H]; [|exact (A' v0 a0 H)]. injection H as <- <-. apply M'. unfold set. rewrite String.eqb_refl. reflexivity.
      * eapply evolve_trans; [exact V1|]. eapply evolve_weaken; [|exact V']. cbn beta. intros x Hx. cbn [map snd filter]. destruct (tracked a); [right|]; exact Hx.
      * intros y Hy. cbn [map snd filter] in Hy. rewrite K', F1; [reflexivity| |].
        -- intros T E. rewrite T in Hy. apply Hy. left. exact E.
        -- intros H. apply Hy. destruct (tracked a); [right|]; exact H.
Qed.

Lemma below l : forall K (B : frame) (st st' : state), scoped K l -> lets l = [] -> (forall x, In x K -> B x = None) -> fills B -> exec l st = Some st' -> exec l (B :: st) = Some (B :: st').
Proof.
  induction l as [|c l IH]; intros K B st st' Hs Hl HK HF X; [cbn [exec] in X; injection X as <-; reflexivity|].
  assert (NOLET : forall xs, c = Let xs -> xs = []).
  { intros xs ->. change (lets (Let xs :: l)) with (xs ++ lets l) in Hl. destruct xs; [reflexivity|discriminate]. }
  assert (Hl' : lets l = []) by (change (lets (c :: l)) with (match c with Let xs => xs | _ => [] end ++ lets l) in Hl; apply app_eq_nil in Hl; tauto).
  destruct c as [x h|xs| | | |]; try contradiction; cbn [scoped] in Hs.
  - destruct Hs as [Hm Hs]. cbn [exec exec1] in X |- *. destruct (has st x) eqn:Hx; [|discriminate]. rewrite (fills_has B st x HF Hx).
    destruct h; [|exact (IH K B st st' Hs Hl' HK HF X)|exact (IH K B st st' Hs Hl' HK HF X)].
    assert (Ep : put (B :: st) x false = B :: put st x false) by (cbn [put]; rewrite (HK x (Hm eq_refl)); reflexivity).
    rewrite Ep. exact (IH K B _ st' Hs Hl' HK HF X).
  - rewrite (NOLET xs eq_refl) in *. rewrite app_nil_r in Hs. cbn [exec exec1 declare fold_left] in X |- *.
    apply (IH K B st st'); auto. destruct st; exact X.
Qed.

(** * The Loop node *)
Definition body_code' (s : scope) (pos : nat) (outer : list arg) (refs exclude : list string) (b : cgraph) : scope * list stmt :=
  match b with
  | CGraph gi gn go =>
      let (s1, e1) := bindings s pos outer refs exclude (referenced b) in
      let s2 := register_subgraph b pos s1 in
      let (s3, e3) := sub_nodes s2 pos gn in (s3, e1 ++ e3)
  end.
Lemma body_code_eq s pos outer refs b : body_code' s pos outer refs (map aname (gins b)) b = body_code s pos outer refs b.
Proof.
  destruct b as [gi gn go]. unfold body_code', body_code. cbn [gnodes]. destruct (bindings _ _ _ _ _ _). cbv zeta. rewrite sub_nodes_eq. reflexivity.
Qed.

Definition loop_code (ecount econd ebody : list stmt) (init : list arg) (b : cgraph) : list stmt :=
  let vars := map aname (skipn 2 (gins b)) in
  let iter := nth 0 (map aname (gins b)) ""%string in
  let cond_in := nth 1 (map aname (gins b)) ""%string in
  flat_map (fun vi => [bare (snd vi); Let [fst vi]]) (combine vars init) ++ [Let [iter]] ++ econd ++ [Let [cond_in]] ++
  [Loop_ ([Use cond_in Copied; Use iter Copied] ++ ecount ++ [Block (turn_code ebody (length init) b)])] ++
  map (fun vi => Use (fst vi) (if tracked (snd vi) then Moved else Copied)) (combine vars init).
Lemma forward_loop s pos count cond init outer outs refs b : forward s pos (LoopNode count cond init outer outs refs b) =
  let (s1, ecount) := if is_optional count then (s, []) else use_arg s pos count in
  let (s2, econd) := if is_optional cond then (s1, []) else use_arg s1 pos cond in
  let (s3, ebody) := body_code s2 pos outer refs b in
  (s3, [Block (loop_code ecount econd ebody init b); Let (map aname outs)]).
Proof.
  transitivity (let (s1, ecount) := if is_optional count then (s, []) else use_arg s pos count in
    let (s2, econd) := if is_optional cond then (s1, []) else use_arg s1 pos cond in
    let (s3, ebody) := body_code' s2 pos outer refs (map aname (gins b)) b in
    (s3, [Block (loop_code ecount econd ebody init b); Let (map aname outs)])); [reflexivity|].
  destruct (if is_optional count then _ else _) as [s1 e1]. destruct (if is_optional cond then _ else _) as [s2 e2]. rewrite body_code_eq. reflexivity.
Qed.

Lemma exec_block a l s : exec (Block a :: l) s = match option_map (@tl frame) (exec a (empty :: s)) with Some s1 => exec l s1 | None => None end.
Proof. reflexivity. Qed.
Lemma exec_loop a l s s1 s2 : exec a (empty :: s) = Some s1 -> exec a (empty :: tl s1) = Some s2 ->
  exec (Loop_ a :: l) s = exec l (both s (both (tl s1) (tl s2))).
Proof.
  intros H1 H2.
  transitivity (match (match option_map (@tl frame) (exec a (empty :: s)) with
    | None => None | Some t1 => match option_map (@tl frame) (exec a (empty :: t1)) with None => None | Some t2 => Some (both s (both t1 t2)) end end)
    with None => None | Some s' => exec l s' end); [reflexivity|].
  rewrite H1. cbn [option_map]. rewrite H2. reflexivity.
Qed.

Lemma times_app x l1 l2 : times x (l1 ++ l2) = (times x l1 + times x l2)%nat.
Proof. unfold times. rewrite map_app, count_occ_app. reflexivity. Qed.
Lemma present_times x P a : (times x (filter P (present a)) <= times x (filter P [a]))%nat.
Proof. unfold present. destruct (is_optional a); [unfold times; cbn; lia|lia]. Qed.
Lemma optional_unregistered a : is_optional a = true -> registered a = false.
Proof. unfold registered, is_optional, is_dynamic, is_constant. destruct (asrc a); cbn; congruence. Qed.
Lemma present_count_ok x count : is_optional count = true \/ tracked count = false -> times x (filter registered (present count)) = 0%nat.
Proof.
  intros H. unfold present. destruct (is_optional count) eqn:E; [reflexivity|]. destruct H as [H|H]; [discriminate|]. cbn [filter].
  destruct (registered count) eqn:R; [rewrite (registered_tracked count R) in H; discriminate|reflexivity].
Qed.
Lemma times_le_reg x l : (forall a, In a l -> tracked a = true -> registered a = true) -> times x (filter tracked l) = times x (filter registered l).
Proof.
  intros H. f_equal. apply filter_ext_in. intros a Ha. destruct (tracked a) eqn:T; [symmetry; apply H; assumption|].
  destruct (registered a) eqn:R; [rewrite (registered_tracked a R) in T; discriminate|reflexivity].
Qed.
Lemma same3 s : same s (both s (both s s)).
Proof. apply same_both; [apply same_refl|]. apply same_both; apply same_refl. Qed.

Lemma node_locals_loop count cond init outer outs refs b : node_locals (LoopNode count cond init outer outs refs b) = body_locals refs outer b.
Proof. destruct b. reflexivity. Qed.
Lemma node_locals_scan init seqs outer outs refs b : node_locals (ScanNode init seqs outer outs refs b) = body_locals refs outer b.
Proof. destruct b. reflexivity. Qed.
Lemma takes_loop count cond init outer outs refs b x : takes (LoopNode count cond init outer outs refs b) x = (times x (filter tracked (present cond)) + body_takes refs outer b x)%nat.
Proof. destruct b. reflexivity. Qed.
Lemma takes_scan init seqs outer outs refs b x : takes (ScanNode init seqs outer outs refs b) x = body_takes refs outer b x.
Proof. destruct b. reflexivity. Qed.
Lemma legal_nested gn : fold_right (fun m P => legal_node m /\ P) True gn -> forall n, In n gn -> legal_node n.
Proof. induction gn as [|m l IH]; [intros _ n []|]. intros [H1 H2] n [<-|Hn]; [exact H1|exact (IH H2 n Hn)]. Qed.
Lemma legal_loop_ count cond init outer outs refs b : legal_node (LoopNode count cond init outer outs refs b) ->
  legal_loop count cond init outer refs b /\ forall n, In n (gnodes b) -> legal_node n.
Proof. destruct b as [gi gn go]. intros [H1 H2]. split; [exact H1|exact (legal_nested gn H2)]. Qed.
Lemma legal_scan_ init seqs outer outs refs b : legal_node (ScanNode init seqs outer outs refs b) ->
  legal_scan init seqs outer outs refs b /\ forall n, In n (gnodes b) -> legal_node n.
Proof. destruct b as [gi gn go]. intros [H1 H2]. split; [exact H1|exact (legal_nested gn H2)]. Qed.

Lemma loop_step count cond init outer outs refs b :
  legal_loop count cond init outer refs b ->
  (forall a, In a (read_by (LoopNode count cond init outer outs refs b)) -> tracked a = true -> registered a = true) ->
  NoDup (body_locals refs outer b) -> (forall n, In n (gnodes b) -> step n) ->
  step (LoopNode count cond init outer outs refs b).
Proof.
  intros LL Hreg Hnd Hst rest D s f pos L SO HD Hr Hs Hl Hfr Hin. set (n := LoopNode count cond init outer outs refs b) in *.
  unfold n in Hfr |- *. rewrite node_locals_loop in Hfr |- *. fold n. cbn [c_outputs initial n] in *.
  assert (RB : forall a, In a (present cond) \/ In a init \/ In a outer -> In a (read_by n)).
  { intros a H. cbn [read_by n]. rewrite !in_app_iff. tauto. }
  set (X := map aname (gins b)).
  assert (NX : NoDup X) by exact (NoDup_app_l _ _ (NoDup_app_l _ _ Hnd)).
  assert (XL : forall x, In x X -> In x (body_locals refs outer b)) by (intros x Hx; apply in_or_app; left; apply in_or_app; left; exact Hx).
  assert (TX : forall a, In a (read_by n) -> tracked a = true -> ~ In (aname a) X).
  { intros a Ha T Hx. destruct (Hs a Ha T) as (r & p & E & _). rewrite (Hfr _ (XL _ Hx)) in E. discriminate. }
  (* counting *)
  assert (NR : forall x, nreg n x = (times x (filter registered (present cond)) + times x (filter registered init) + times x (filter registered outer))%nat).
  { intros x. unfold nreg. cbn [c_inputs n]. change (count :: cond :: init ++ outer) with ([count] ++ [cond] ++ init ++ outer). rewrite !filter_app_times.
    assert (Z : times x (filter registered [count]) = 0%nat).
    { cbn [filter]. destruct (registered count) eqn:Rc; [|reflexivity]. destruct (ll_count _ _ _ _ _ _ LL) as [H|H].
      - rewrite (optional_unregistered count H) in Rc. discriminate.
      - rewrite (registered_tracked count Rc) in H. discriminate. }
    assert (C : times x (filter registered [cond]) = times x (filter registered (present cond))).
    { unfold present. destruct (is_optional cond) eqn:Ec; [|reflexivity]. cbn [filter]. rewrite (optional_unregistered cond Ec). reflexivity. }
    rewrite Z, C. lia. }
  assert (TI : forall x, times x (filter tracked init) = times x (filter registered init)) by (intros x; apply times_le_reg; intros a Ha; apply Hreg, RB; tauto).
  assert (INIT1 : forall x, In x (map aname (filter tracked init)) -> (nreg n x + L x <= 1)%nat).
  { intros x Hx. apply in_map_iff in Hx. destruct Hx as (a & <- & Ha). apply filter_In in Ha. apply Hin; tauto. }
  assert (INITN : NoDup (map aname (filter tracked init))).
  { apply (NoDup_count_occ string_dec). intros x. destruct (in_dec string_dec x (map aname (filter tracked init))) as [Hx|Hx].
    - specialize (INIT1 x Hx). rewrite NR in INIT1. fold (times x (filter tracked init)). rewrite TI. lia.
    - rewrite (proj1 (count_occ_not_In string_dec _ _) Hx). lia. }
  assert (KIND : forall a a', In a (read_by n) -> In a' (read_by n) -> aname a = aname a' -> tracked a = tracked a').
  { intros a a' Ha Ha' E. destruct (Hr a Ha) as [(c & Hc & Ec & Tc) _]. destruct (Hr a' Ha') as [(c' & Hc' & Ec' & Tc') _].
    assert (c = c') by (apply (named_once D); auto; congruence). congruence. }
  assert (LIVE : forall a, In a (read_by n) -> has (f :: rest) (aname a) = true).
  { intros a Ha. destruct (Hr a Ha) as [(c & Hc & Ec & Tc) _]. destruct (Hl c Hc) as [P Q]. rewrite Ec, Tc in *.
    destruct (tracked a) eqn:T; [|apply P; reflexivity]. apply Q; [reflexivity|]. left. assert (Hci : In a (c_inputs n)).
    { cbn [read_by c_inputs n] in *. rewrite !in_app_iff in Ha. unfold present in Ha. destruct (is_optional count), (is_optional cond); cbn in Ha |- *; rewrite in_app_iff; tauto. }
    pose proof (nreg_of n a Hci (Hreg a Ha T)). lia. }
  (* the block of the loop *)
  pose proof (ll_ins _ _ _ _ _ _ LL) as Li. destruct (gins b) as [|gi [|gc vs]] eqn:Eg; [discriminate|discriminate|]. cbn [length] in Li.
  assert (Lv : length (map aname vs) = length init) by (rewrite map_length; lia).
  set (l := combine (map aname vs) init).
  assert (Hls : map snd l = init) by (apply combine_snd; exact Lv).
  assert (Hl1 : forall v a, In (v, a) l -> In v X /\ In a init).
  { intros v a H. split; [right; right; eapply in_combine_l; exact H|eapply in_combine_r; exact H]. }
  destruct (init_ok X l empty (f :: rest)) as (B1 & st1 & X1 & F1 & D1 & _ & A1 & V1 & K1).
  { exact fills_empty. }
  { intros x H. exfalso. apply H. reflexivity. }
  { intros v a H. exact (proj1 (Hl1 v a H)). }
  { intros v a H T. destruct (Hl1 v a H) as [_ Hi]. apply TX; [apply RB; tauto|exact T]. }
  { intros v a H. destruct (Hl1 v a H) as [_ Hi]. apply LIVE, RB. tauto. }
  { intros v a v' a' H H'. destruct (Hl1 v a H), (Hl1 v' a' H'). apply KIND; apply RB; tauto. }
  { rewrite Hls. exact INITN. }
  rewrite Hls in K1, V1.
  set (L' := fun x => (times x (filter registered outer) + L x)%nat).
  set (accs := map Owned (present cond)).
  assert (Eacc : map acc_arg accs = present cond) by (unfold accs; rewrite map_map; apply map_id).
  assert (TC : forall x, times x (filter tracked (present cond)) = times x (filter registered (present cond))) by (intros x; apply times_le_reg; intros a Ha; apply Hreg, RB; tauto).
  assert (LFT : forall x, lft L' accs x = (times x (filter registered (present cond)) + (times x (filter registered outer) + L x))%nat).
  { intros x. unfold lft, L'. rewrite Eacc, TC. reflexivity. }
  assert (LIVE1 : live D st1 (fun x => (0 < lft L' accs x)%nat \/ SO x)).
  { intros c Hc. destruct (Hl c Hc) as [P Q]. destruct (in_dec string_dec (aname c) (map aname (filter tracked init))) as [Hx|Hx].
    - pose proof (INIT1 _ Hx) as H1. rewrite NR in H1. assert (Hp : (0 < times (aname c) (filter registered init))%nat) by (rewrite <- TI; apply times_pos; exact Hx).
      apply in_map_iff in Hx. destruct Hx as (a & Ea & Ha). apply filter_In in Ha. destruct Ha as [Ha Ta].
      destruct (Hr a (RB a ltac:(tauto))) as [(c' & Hc' & Ec' & Tc') NS]. assert (c = c') by (apply (named_once D); auto; congruence). subst c'.
      split; [congruence|]. intros _ [H0|H0]; [rewrite LFT in H0; lia|]. exfalso. apply NS. rewrite Ea. exact H0.
    - rewrite (K1 _ Hx). split; [exact P|]. intros T [H0|H0]; apply Q; auto; [left|right; exact H0]. rewrite LFT in H0. rewrite NR. lia. }
  destruct (acc_ok D pos L' SO HD accs s st1) as (st2 & E2 & V2 & L2 & S2).
  { intros c Hc. apply Hr, RB. left. rewrite <- Eacc. apply in_map. exact Hc. }
  { intros c Hc T. assert (Hci : In (acc_arg c) (present cond)) by (rewrite <- Eacc; apply in_map; exact Hc).
    destruct (Hs (acc_arg c) (RB _ (or_introl Hci)) T) as (r & p & E & Hp & Hle). exists r, p. split; [exact E|]. split; [exact Hp|]. rewrite LFT. rewrite NR in Hle. lia. }
  { exact LIVE1. }
  destruct (acc_scoped pos accs s (map aname (filter tracked (present cond)))) as [SC1 SC2].
  { intros c Hc T. apply in_map, filter_In. split; [rewrite <- Eacc; apply in_map; exact Hc|exact T]. }
  rewrite Eacc in S2.
  (* the code *)
  assert (Ecount : exists ecount, (if is_optional count then (s, []) else use_arg s pos count : scope * list stmt) = (s, ecount) /\ (ecount = [] \/ (ecount = [Use (aname count) Copied] /\ In count (read_by n) /\ tracked count = false))).
  { destruct (is_optional count) eqn:Eo; [exists []; auto|]. destruct (ll_count _ _ _ _ _ _ LL) as [H|H]; [congruence|].
    exists [Use (aname count) Copied]. unfold use_arg. rewrite H. split; [reflexivity|]. right. split; [reflexivity|]. split; [|first [exact H|reflexivity]]. cbn [read_by n]. unfold present. rewrite Eo. left; reflexivity. }
  destruct Ecount as (ecount & Ecount & Hcount).
  assert (Econd : exists s2 econd, (if is_optional cond then (s, []) else use_arg s pos cond : scope * list stmt) = (s2, econd) /\ gen_accesses s pos accs = (s2, econd)).
  { unfold accs, present. destruct (is_optional cond); [exists s, []; split; reflexivity|]. cbn [map gen_accesses gen_access]. destruct (use_arg s pos cond) as [s2 e2]. exists s2, e2. rewrite app_nil_r. split; reflexivity. }
  destruct Econd as (s2 & econd & Econd & Egen). rewrite Egen in *. cbn [fst snd] in *.
  assert (Hout : forall o, In o outer -> has st2 (aname o) = true).
  { intros o Ho. destruct (Hr o (RB o ltac:(tauto))) as [(c & Hc & Ec & Tc) _]. destruct (L2 c Hc) as [P Q]. rewrite Ec, Tc in *.
    destruct (tracked o) eqn:T; [|apply P; reflexivity]. apply Q; [reflexivity|]. left. unfold L'.
    assert (0 < times (aname o) (filter registered outer))%nat; [|lia]. apply times_pos, in_map, filter_In. split; [exact Ho|]. apply Hreg; [apply RB; tauto|exact T]. }
  assert (Hent : forall o, In o outer -> tracked o = true -> exists r p, sget s2 (aname o) = Some (r, p) /\ (p <= pos)%nat).
  { intros o Ho T. destruct (Hs o (RB o ltac:(tauto)) T) as (r & p & E & Hp & _). destruct (proj1 S2 _ r p E) as (r' & E' & _). eauto. }
  assert (Hloc : forall x, In x (body_locals refs outer b) -> sget s2 x = None) by (intros x Hx; apply (proj2 S2), Hfr; exact Hx).
  destruct (body_ok refs outer b s2 pos (ll_refs _ _ _ _ _ _ LL) (ll_body _ _ _ _ _ _ LL) Hst (ll_shape _ _ _ _ _ _ LL) Hent Hloc) as [_ SB].
  assert (TURN := turn_ok count cond init outer refs b s2 pos LL Hst). rewrite Eg in TURN. specialize (TURN NX Hent Hloc).
  assert (Ef : forward s pos n = let (s3, ebody) := body_code s2 pos outer refs b in (s3, [Block (loop_code ecount econd ebody init b); Let (map aname outs)])).
  { etransitivity; [exact (forward_loop s pos count cond init outer outs refs b)|].
    match goal with |- (let (_, _) := ?e in _) = _ => replace e with (s : scope, ecount) by (symmetry; exact Ecount) end. cbv beta iota.
    match goal with |- (let (_, _) := ?e in _) = _ => replace e with (s2 : scope, econd) by (symmetry; exact Econd) end. reflexivity. }
  destruct (body_code s2 pos outer refs b) as [s3 ebody] eqn:Eb. cbn [fst snd] in *. rewrite Ef. cbn [fst snd]. clear Ef.
  (* running it *)
  set (B2 := set B1 (aname gi) true). set (B3 := set B2 (aname gc) true).
  assert (W3 : whole_frame X B3).
  { split.
    - intros x Hx. unfold B3, B2, set. destruct (String.eqb_spec (aname gc) x); [reflexivity|]. destruct (String.eqb_spec (aname gi) x); [reflexivity|].
      destruct Hx as [Hx|[Hx|Hx]]; [congruence|congruence|]. fold (map aname vs) in Hx. apply In_nth_error in Hx. destruct Hx as [k Hk].
      assert (Hlt : (k < length init)%nat) by (rewrite <- Lv; apply nth_error_Some; congruence).
      destruct (nth_error init k) as [a|] eqn:Ea; [|apply nth_error_None in Ea; lia]. apply (A1 x a). exact (nth_error_combine _ _ k x a Hk Ea).
    - intros x Hx. unfold B3, B2. rewrite !set_dom. repeat split; try (intros E; apply Hx; unfold X; cbn; tauto).
      destruct (B1 x) eqn:E; [exfalso; apply Hx, D1; congruence|reflexivity]. }
  assert (HEAD : forall B, whole_frame X B -> exec ([Use (aname gc) Copied; Use (aname gi) Copied] ++ ecount) (empty :: B :: st2) = Some (empty :: B :: st2)).
  { intros B HB. assert (Hg : forall x, In x X -> has (empty :: B :: st2) x = true) by (intros x Hx; cbn; rewrite (proj1 HB x Hx); reflexivity).
    rewrite exec_app. cbn [exec exec1]. rewrite (Hg (aname gc)) by (right; left; reflexivity). rewrite (Hg (aname gi)) by (left; reflexivity).
    destruct Hcount as [->|(-> & Hc & Tc)]; [reflexivity|]. cbn [exec exec1].
    assert (Hh : has (empty :: B :: st2) (aname count) = true).
    { apply (fills_has empty); [exact fills_empty|]. apply fills_has; [exact (whole_fills X B HB)|].
      destruct (Hr count Hc) as [(c & Hcc & Ec & Tcc) _]. destruct (L2 c Hcc) as [P _]. rewrite Ec in P. apply P. congruence. }
    rewrite Hh. reflexivity. }
  assert (ITER : forall B, whole_frame X B -> exists B', whole_frame X B' /\
    runs ([Use (aname gc) Copied; Use (aname gi) Copied] ++ ecount ++ [Block (turn_code ebody (length init) b)]) (empty :: B :: st2) (empty :: B' :: st2)).
  { intros B HB. destruct (TURN B st2 HB) as (fb & B' & XT & HB').
    { intros o Ho. apply (fills_has empty); [exact fills_empty|]. apply fills_has; [exact (whole_fills X B HB)|exact (Hout o Ho)]. }
    exists B'. split; [exact HB'|]. rewrite app_assoc. eapply runs_app; [apply runs_of; exact (HEAD B HB)|]. exact (runs_block _ _ _ _ XT). }
  destruct (ITER B3 W3) as (B4 & W4 & I4). destruct (ITER B4 W4) as (B5 & W5 & I5).
  set (Bs := both_frames B3 (both_frames B4 B5)). set (rs := both st2 (both st2 st2)).
  assert (WS : forall x, In x X -> Bs x = Some true).
  { intros x Hx. unfold Bs, both_frames. rewrite (proj1 W3 x Hx), (proj1 W4 x Hx), (proj1 W5 x Hx). reflexivity. }
  set (fin := map (fun vi : string * arg => mkArg (fst vi) (aty (snd vi)) VDynamic) l).
  assert (Efin : map (fun vi => Use (fst vi) (if tracked (snd vi) then Moved else Copied)) l = map bare fin).
  { unfold fin. rewrite map_map. apply map_ext. intros [v a]. reflexivity. }
  assert (Hfin : map aname fin = map aname vs).
  { unfold fin. rewrite map_map. cbn [aname]. unfold l. clear -Lv. revert init Lv. induction (map aname vs) as [|v r IH]; intros [|a i] H; try discriminate; [reflexivity|].
    cbn. f_equal. apply IH. injection H as H. exact H. }
  assert (NDv : NoDup (map aname fin)) by (rewrite Hfin; unfold X in NX; cbn in NX; inversion NX as [|? ? _ N1]; inversion N1; assumption).
  assert (InX : forall a, In a fin -> In (aname a) X).
  { intros a Ha. right; right. fold (map aname vs). rewrite <- Hfin. apply in_map. exact Ha. }
  destruct (bare_ok rs fin Bs) as (B6 & X6).
  { intros a Ha. specialize (WS _ (InX a Ha)). split; [intros _; exact WS|intros _; apply has_top; exact WS]. }
  { clear -NDv. induction fin as [|a r IH]; [constructor|]. cbn in NDv. inversion NDv as [|? ? N1 N2]; subst. cbn. destruct (tracked a); [|exact (IH N2)].
    cbn. constructor; [|exact (IH N2)]. intros H. apply N1. apply in_map_iff in H. destruct H as (c & Ec & Hc). apply filter_In in Hc. rewrite <- Ec. apply in_map. tauto. }
  { intros a a' Ha Ha' E. f_equal. exact (NoDup_map_inj aname fin a a' NDv Ha Ha' E). }
  assert (XC : exec econd (B2 :: st1) = Some (B2 :: st2)).
  { apply (below econd (map aname (filter tracked (present cond))) B2 st1 st2); auto.
    - intros x Hx. apply in_map_iff in Hx. destruct Hx as (a & <- & Ha). apply filter_In in Ha. destruct Ha as [Ha Ta].
      pose proof (TX a (RB a (or_introl Ha)) Ta) as Hx. unfold B2. apply set_dom. split; [|intros E; apply Hx; left; exact E].
      destruct (B1 (aname a)) eqn:E; [exfalso; apply Hx, D1; congruence|reflexivity].
    - apply fills_set. exact F1. }
  assert (RUN : runs (loop_code ecount econd ebody init b) (empty :: f :: rest) (B6 :: st2)).
  { apply (runs_same _ _ (B6 :: rs)); [|constructor; [reflexivity|apply same_sym; exact (same3 st2)]].
    unfold loop_code. rewrite Eg. cbn [map nth skipn]. fold l. rewrite Efin.
    eapply runs_app; [apply runs_of; exact X1|]. eapply runs_app; [apply (runs_let [aname gi])|]. cbn [fold_left]. fold B2.
    eapply runs_app; [apply runs_of; exact XC|]. eapply runs_app; [apply (runs_let [aname gc])|]. cbn [fold_left]. fold B3.
    eapply runs_app; [exact (runs_loop _ _ _ _ _ _ I4 I5)|]. apply runs_of. exact X6. }
  assert (TRK : forall x, In x (map aname (filter tracked init)) -> trk D x).
  { intros x Hx. apply in_map_iff in Hx. destruct Hx as (a & <- & Ha). apply filter_In in Ha. destruct Ha as [Ha Ta].
    destruct (Hr a (RB a ltac:(tauto))) as [(c & Hc & Ec & Tc) _]. exists c. split; [exact Hc|]. split; [congruence|exact Ec]. }
  assert (V : evolve (trk D) (f :: rest) st2) by (eapply evolve_trans; [eapply evolve_weaken; [exact TRK|exact V1]|exact V2]).
  destruct st2 as [|f2 rest2]; [destruct V|].
  destruct (declared D outs [Block (loop_code ecount econd ebody init b)] f rest f2 rest2 (need L SO)) as (f' & rest' & R1 & R2 & R3).
  { exact (runs_block _ _ _ _ RUN). }
  { apply grown_evolve. exact V. }
  { eapply live_weaken; [exact L2|]. intros x [Hx|Hx]; [left; unfold L'; lia|right; exact Hx]. }
  exists f', rest'. split; [exact R1|]. split; [exact R2|]. split; [exact R3|].
  pose proof (spent_but_trans _ _ _ _ _ _ _ (spent_but_of _ _ _ [] S2) SB) as Q. cbn [app] in Q.
  eapply spent_but_weaken; [exact Q|]. intros x. unfold n. rewrite takes_loop. lia.
Qed.
