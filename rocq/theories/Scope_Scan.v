(** Proofs about the generated code of Scan nodes. *)
From Verif Require Import IR_Model Util Scope_Spec Scope_Model Scope_Cond Scope_Proofs Scope_If Scope_Loop.
From Coq Require Import Lia ZifyBool ZifyNat FinFun.

(** * The names of the generator *)
Lemma stacked_inj k j : stacked k = stacked j -> k = j.
Proof. intros H. unfold stacked in H. apply string_app_inj_l, dec_inj in H. lia. Qed.

(** * Declarations *)
Lemma lets_new (g : nat -> string) (st : state) : forall ks (B : frame), fills B ->
  exists B', exec (map (fun k => Let [g k]) ks) (B :: st) = Some (B' :: st) /\ fills B' /\
    (forall x, B x = Some true -> B' x = Some true) /\ (forall k, In k ks -> B' (g k) = Some true).
Proof.
  induction ks as [|k ks IH]; intros B HF; [exists B; split; [reflexivity|split; [exact HF|split; [auto|intros ? []]]]|].
  destruct (IH (set B (g k) true) (fills_set _ _ HF)) as (B' & X & F & M & A). exists B'. split; [exact X|]. split; [exact F|].
  assert (M' : forall x, B x = Some true -> B' x = Some true) by (intros x Hx; apply M; unfold set; destruct (String.eqb (g k) x); [reflexivity|exact Hx]).
  split; [exact M'|]. intros j [<-|Hj]; [|exact (A j Hj)]. apply M. unfold set. rewrite String.eqb_refl. reflexivity.
Qed.
Lemma stack_ok (st : state) : forall ks (B : frame), (forall k, In k ks -> B (collector k) = Some true) ->
  exists B', exec (flat_map (fun k => [Use (collector k) Cloned; Let [stacked k]]) ks) (B :: st) = Some (B' :: st) /\
    (forall x, B x = Some true -> B' x = Some true) /\ (forall k, In k ks -> B' (stacked k) = Some true).
Proof.
  induction ks as [|k ks IH]; intros B HC; [exists B; split; [reflexivity|split; [auto|intros ? []]]|].
  assert (M0 : forall x, B x = Some true -> set B (stacked k) true x = Some true) by (intros x Hx; unfold set; destruct (String.eqb (stacked k) x); [reflexivity|exact Hx]).
  destruct (IH (set B (stacked k) true)) as (B' & X & M & A); [intros j Hj; apply M0, HC; right; exact Hj|].
  exists B'. split; [|split; [auto|]].
  - assert (Hc : has (B :: st) (collector k) = true) by (apply has_top, HC; left; reflexivity).
    cbn [flat_map]. rewrite exec_app. cbn [exec exec1]. rewrite Hc. exact X.
  - intros j [<-|Hj]; [|exact (A j Hj)]. apply M. unfold set. rewrite String.eqb_refl. reflexivity.
Qed.
Lemma slices_ok (out : state) : has out "i" = true -> forall l (fb : frame), fills fb -> (forall (e : string) a, In (e, a) l -> has out (aname a) = true) ->
  exists fb', exec (flat_map (fun es : string * arg => [Use (aname (snd es)) Cloned; Use "i" Copied; Let [fst es]]) l) (fb :: out) = Some (fb' :: out) /\ fills fb' /\
    (forall x, fb x = Some true -> fb' x = Some true) /\ (forall e a, In (e, a) l -> fb' e = Some true) /\ (forall x, fb' x <> None -> fb x <> None \/ In x (map fst l)).
Proof.
  intros Hi. induction l as [|[e a] l IH]; intros fb HF HO; [exists fb; split; [reflexivity|split; [exact HF|split; [auto|split; [intros ? ? []|auto]]]]|].
  destruct (IH (set fb e true) (fills_set _ _ HF)) as (fb' & X & F & M & A & Dm); [intros e' a' H; apply (HO e' a'); right; exact H|].
  assert (M' : forall x, fb x = Some true -> fb' x = Some true) by (intros x Hx; apply M; unfold set; destruct (String.eqb e x); [reflexivity|exact Hx]).
  exists fb'. split; [|split; [exact F|split; [exact M'|split]]].
  - assert (H1 : has (fb :: out) (aname a) = true) by (apply fills_has; [exact HF|apply (HO e a); left; reflexivity]).
    assert (H2 : has (fb :: out) "i" = true) by (apply fills_has; assumption).
    cbn [flat_map]. rewrite exec_app. cbn [fst snd exec exec1]. rewrite H1. cbn [exec1]. rewrite H2. exact X.
  - intros e' a' [H|H]; [|exact (A e' a' H)]. injection H as <- <-. apply M. unfold set. rewrite String.eqb_refl. reflexivity.
  - intros x Hx. destruct (Dm x Hx) as [H|H]; [|right; right; exact H]. rewrite set_dom in H. destruct (string_dec e x) as [<-|]; [right; left; reflexivity|left; tauto].
Qed.

(** * The next states *)
Definition upd (cl : bool) (vo : string * arg) : list stmt := [next_value cl (snd vo); Assign (fst vo)].

Lemma put_two (fb M B : frame) (rest : state) v b : fb v = None -> M v = None -> B v <> None -> put (fb :: M :: B :: rest) v b = fb :: M :: set B v b :: rest.
Proof. intros H1 H2 H3. cbn. rewrite H1, H2. destruct (B v); [reflexivity|congruence]. Qed.

Lemma upd_ok cl V (M : frame) (rest : state) : forall l (fb B : frame),
  (forall x, In x V -> fb x = None /\ M x = None /\ B x <> None) ->
  (forall v o, In (v, o) l -> In v V) ->
  (forall v o, In (v, o) l -> has (fb :: M :: B :: rest) (aname o) = true) ->
  (cl = false -> forall v o, In (v, o) l -> tracked o = true -> v = aname o \/ fb (aname o) = Some true) ->
  (forall v o v' o', In (v, o) l -> In (v', o') l -> aname o = aname o' -> tracked o = tracked o') ->
  (cl = false -> NoDup (map aname (filter tracked (map snd l)))) ->
  exists fb' B', exec (flat_map (upd cl) l) (fb :: M :: B :: rest) = Some (fb' :: M :: B' :: rest) /\
    (forall x, B x = Some true -> B' x = Some true) /\ (forall v o, In (v, o) l -> B' v = Some true) /\
    (forall x, ~ In x V -> B' x = B x) /\ (cl = true -> fb' = fb).
Proof.
  induction l as [|[v o] l IH]; intros fb B HV Hv Hh Ht Hk Hn.
  - exists fb, B. split; [reflexivity|]. split; [auto|]. split; [intros ? ? []|]. split; reflexivity.
  - destruct (HV v (Hv v o (or_introl eq_refl))) as (Vf & VM & VB).
    pose proof (Hh v o (or_introl eq_refl)) as Ho.
    set (self := String.eqb v (aname o)).
    set (fb1 := if (tracked o && negb cl && negb self)%bool then set fb (aname o) false else fb).
    assert (Hne : forall v0 o0, In (v0, o0) l -> cl = false -> tracked o = true -> aname o0 <> aname o).
    { intros v0 o0 H Ec T E. assert (T0 : tracked o0 = true) by (rewrite (Hk v0 o0 v o); [exact T|right; exact H|left; reflexivity|exact E]).
      specialize (Hn Ec). cbn in Hn. rewrite T in Hn. inversion Hn as [|? ? N1 _]; subst. apply N1. rewrite <- E. apply in_map, filter_In. split; [|exact T0].
      apply in_map_iff. exists (v0, o0). auto. }
    assert (X0 : exists B1, exec (upd cl (v, o)) (fb :: M :: B :: rest) = Some (fb1 :: M :: B1 :: rest) /\ (forall x, B1 x = set B v true x)).
    { unfold upd, next_value. cbn [fst snd exec exec1]. rewrite Ho. unfold fb1. destruct (tracked o) eqn:T; cbn [andb].
      - destruct cl; cbn [negb andb].
        + exists (set B v true). split; [|reflexivity]. rewrite put_two by assumption. reflexivity.
        + unfold self. destruct (String.eqb_spec v (aname o)) as [E|E]; cbn [negb].
          * rewrite <- E. rewrite (put_two fb M B rest v false) by assumption. rewrite put_two; [|exact Vf|exact VM|unfold set; rewrite String.eqb_refl; discriminate].
            exists (set (set B v false) v true). split; [reflexivity|]. intros x. unfold set. destruct (String.eqb v x); reflexivity.
          * destruct (Ht eq_refl v o (or_introl eq_refl) T) as [H|H]; [contradiction|]. exists (set B v true). split; [|reflexivity].
            assert (Ep : put (fb :: M :: B :: rest) (aname o) false = set fb (aname o) false :: M :: B :: rest) by (cbn [put]; rewrite H; reflexivity).
            rewrite Ep, put_two; [reflexivity| |exact VM|exact VB]. apply set_dom. split; [exact Vf|congruence].
      - exists (set B v true). split; [|reflexivity]. rewrite put_two by assumption. reflexivity. }
    destruct X0 as (B1 & X0 & EB1).
    assert (B1m : forall x, B x = Some true -> B1 x = Some true) by (intros x Hx; rewrite EB1; unfold set; destruct (String.eqb v x); [reflexivity|exact Hx]).
    destruct (IH fb1 B1) as (fb' & B' & X1 & Mo & A & Ex & Cl).
    + intros x Hx. destruct (HV x Hx) as (H1 & H2 & H3). split; [|split; [exact H2|]].
      * unfold fb1. destruct (tracked o && negb cl && negb self)%bool eqn:Et; [|exact H1]. apply set_dom. split; [exact H1|]. intros E.
        apply andb_prop in Et. destruct Et as [Et Es]. apply andb_prop in Et. destruct Et as [T Ec]. destruct cl; [discriminate|].
        destruct (Ht eq_refl v o (or_introl eq_refl) T) as [H|H]; [|congruence]. unfold self in Es. rewrite H, String.eqb_refl in Es. discriminate.
      * rewrite EB1. unfold set. destruct (String.eqb v x); [discriminate|exact H3].
    + intros v0 o0 H. apply (Hv v0 o0). right; exact H.
    + intros v0 o0 H. pose proof (Hh v0 o0 (or_intror H)) as H0.
      assert (H1 : has (fb1 :: M :: B :: rest) (aname o0) = true).
      { unfold fb1. destruct (tracked o && negb cl && negb self)%bool eqn:Et; [|exact H0]. rewrite has_set_other; [exact H0|].
        apply andb_prop in Et. destruct Et as [Et _]. apply andb_prop in Et. destruct Et as [T Ec]. apply (Hne v0 o0 H); [destruct cl; [discriminate|reflexivity]|exact T]. }
      cbn in H1 |- *. destruct (fb1 (aname o0)); [exact H1|]. destruct (M (aname o0)); [exact H1|]. rewrite EB1. unfold set. destruct (String.eqb v (aname o0)); [reflexivity|exact H1].
    + intros Ec v0 o0 H T0. destruct (Ht Ec v0 o0 (or_intror H) T0) as [E|E]; [left; exact E|right].
      unfold fb1. destruct (tracked o && negb cl && negb self)%bool eqn:Et; [|exact E]. unfold set.
      destruct (String.eqb_spec (aname o) (aname o0)) as [E'|]; [|exact E]. apply andb_prop in Et. destruct Et as [Et _]. apply andb_prop in Et. destruct Et as [T _].
      exfalso. exact (Hne v0 o0 H Ec T (eq_sym E')).
    + intros v0 o0 v1 o1 H H'. apply (Hk v0 o0 v1 o1); right; assumption.
    + intros Ec. specialize (Hn Ec). cbn in Hn. destruct (tracked o); [inversion Hn; assumption|exact Hn].
    + exists fb', B'. split; [|split; [auto|split; [|split]]].
      * cbn [flat_map]. rewrite exec_app. match goal with |- match ?e with _ => _ end = _ => replace e with (Some (fb1 :: M :: B1 :: rest)) by (symmetry; exact X0) end. exact X1.
      * intros v0 o0 [H|H]; [|exact (A v0 o0 H)]. injection H as <- <-. apply Mo. rewrite EB1. unfold set. rewrite String.eqb_refl. reflexivity.
      * intros x Hx. rewrite (Ex x Hx), EB1. unfold set. destruct (String.eqb_spec v x) as [<-|]; [|reflexivity]. exfalso. apply Hx, (Hv v o). left; reflexivity.
      * intros ->. rewrite (Cl eq_refl). unfold fb1. rewrite Bool.andb_false_r. reflexivity.
Qed.

(** * The collected values *)
Lemma push_ok (st : state) : forall (l : list (nat * arg)) (fb : frame),
  (forall k o, In (k, o) l -> fb (collector k) = None /\ has st (collector k) = true) ->
  (forall k o, In (k, o) l -> has (fb :: st) (aname o) = true) ->
  (forall k o, In (k, o) l -> tracked o = true -> fb (aname o) = Some true) ->
  (forall k o k' o', In (k, o) l -> In (k', o') l -> aname o = aname o' -> tracked o = tracked o') ->
  NoDup (map aname (filter tracked (map snd l))) ->
  exists fb', exec (flat_map (fun ko : nat * arg => [Use (collector (fst ko)) Copied; bare (snd ko)]) l) (fb :: st) = Some (fb' :: st).
Proof.
  induction l as [|[k o] l IH]; intros fb Hc Hh Ht Hk Hn; [exists fb; reflexivity|].
  set (fb1 := if tracked o then set fb (aname o) false else fb).
  destruct (Hc k o (or_introl eq_refl)) as [C1 C2]. pose proof (Hh k o (or_introl eq_refl)) as Ho.
  assert (X0 : exec [Use (collector k) Copied; bare o] (fb :: st) = Some (fb1 :: st)).
  { assert (Hck : has (fb :: st) (collector k) = true) by (cbn [has]; rewrite C1; exact C2).
    cbn [exec exec1]. rewrite Hck. cbv beta iota. unfold bare. cbn [exec1]. rewrite Ho. cbv beta iota. unfold fb1. destruct (tracked o) eqn:T; cbv beta iota; [|reflexivity].
    cbn [put]. rewrite (Ht k o (or_introl eq_refl) T). reflexivity. }
  assert (Hne : forall k0 o0, In (k0, o0) l -> tracked o = true -> aname o0 <> aname o).
  { intros k0 o0 H T E. assert (T0 : tracked o0 = true) by (rewrite (Hk k0 o0 k o); [exact T|right; exact H|left; reflexivity|exact E]).
    cbn in Hn. rewrite T in Hn. inversion Hn as [|? ? N1 _]; subst. apply N1. rewrite <- E. apply in_map, filter_In. split; [|exact T0].
    apply in_map_iff. exists (k0, o0). auto. }
  destruct (IH fb1) as (fb' & X1).
  - intros k0 o0 H. destruct (Hc k0 o0 (or_intror H)) as [H1 H2]. split; [|exact H2]. unfold fb1. destruct (tracked o) eqn:T; [|exact H1]. apply set_dom. split; [exact H1|].
    intros E. pose proof (Ht k o (or_introl eq_refl) T) as E1. rewrite E in E1. congruence.
  - intros k0 o0 H. pose proof (Hh k0 o0 (or_intror H)) as H0. unfold fb1. destruct (tracked o) eqn:T; [|exact H0]. rewrite has_set_other; [exact H0|exact (Hne k0 o0 H eq_refl)].
  - intros k0 o0 H T0. pose proof (Ht k0 o0 (or_intror H) T0) as H0. unfold fb1. destruct (tracked o) eqn:T; [|exact H0]. unfold set.
    destruct (String.eqb_spec (aname o) (aname o0)) as [E|]; [exfalso; exact (Hne k0 o0 H eq_refl (eq_sym E))|exact H0].
  - intros k0 o0 k1 o1 H H'. apply (Hk k0 o0 k1 o1); right; assumption.
  - cbn in Hn. destruct (tracked o); [inversion Hn; assumption|exact Hn].
  - exists fb'. cbn [flat_map]. rewrite exec_app. cbn [fst snd]. match goal with |- match ?e with _ => _ end = _ => replace e with (Some (fb1 :: st)) by (symmetry; exact X0) end. exact X1.
Qed.

(** * The Scan node *)
Definition scan_turn (ebody : list stmt) (init seqs : list arg) (b : cgraph) : list stmt :=
  let ns := length init in
  let scans := skipn ns (gouts b) in
  flat_map (fun es : string * arg => [Use (aname (snd es)) Cloned; Use "i" Copied; Let [fst es]]) (combine (map aname (skipn ns (gins b))) seqs) ++
  ebody ++
  flat_map (upd (negb (length scans =? 0)%nat)) (combine (map aname (firstn ns (gins b))) (firstn ns (gouts b))) ++
  flat_map (fun ko : nat * arg => [Use (collector (fst ko)) Copied; bare (snd ko)]) (combine (seq 0 (length scans)) scans).
Definition scan_code (ebody : list stmt) (init seqs outs : list arg) (b : cgraph) : list stmt :=
  let ns := length init in
  let vars := map aname (firstn ns (gins b)) in
  let ks := seq 0 (length (skipn ns (gouts b))) in
  flat_map (fun vi => [bare (snd vi); Let [fst vi]]) (combine vars init) ++
  map (fun k => Let [collector k]) ks ++
  map (fun a => Use (aname a) Copied) (firstn 1 seqs) ++ [Let ["seq_len"%string]] ++
  [Use "seq_len" Copied; Loop_ [Let ["i"%string]; Block (scan_turn ebody init seqs b)]] ++
  flat_map (fun k => [Use (collector k) Cloned; Let [stacked k]]) ks ++
  map (fun vi : string * bool => Use (fst vi) (if snd vi then Moved else Copied))
    (firstn (length outs) (combine vars (map tracked init) ++ map (fun k => (stacked k, true)) ks)).
Lemma forward_scan s pos init seqs outer outs refs b : forward s pos (ScanNode init seqs outer outs refs b) =
  let (s1, ebody) := body_code s pos outer refs b in (s1, [Block (scan_code ebody init seqs outs b); Let (map aname outs)]).
Proof.
  transitivity (let (s1, ebody) := body_code' s pos outer refs (map aname (gins b)) b in (s1, [Block (scan_code ebody init seqs outs b); Let (map aname outs)])); [reflexivity|].
  rewrite body_code_eq. reflexivity.
Qed.

Lemma combine_fst {A B} (l : list A) : forall (m : list B), length l = length m -> map fst (combine l m) = l.
Proof. induction l as [|x l IH]; intros [|y m] H; try discriminate; [reflexivity|]. cbn. f_equal. apply IH. injection H as H. exact H. Qed.
Lemma In_firstn {A} n (l : list A) x : In x (firstn n l) -> In x l.
Proof. intros H. rewrite <- (firstn_skipn n l). apply in_or_app. left; exact H. Qed.
Lemma In_skipn {A} n (l : list A) x : In x (skipn n l) -> In x l.
Proof. intros H. rewrite <- (firstn_skipn n l). apply in_or_app. right; exact H. Qed.
Lemma map_firstn_ {A B} (f : A -> B) l : forall n, map f (firstn n l) = firstn n (map f l).
Proof. induction l as [|x l IH]; intros [|n]; try reflexivity. cbn. f_equal. apply IH. Qed.
Lemma nth_firstn {A} (l : list A) : forall n k, (k < n)%nat -> nth_error (firstn n l) k = nth_error l k.
Proof. induction l as [|x l IH]; intros [|n] [|k] H; try lia; try reflexivity. cbn. apply IH. lia. Qed.

(** The block of the Scan before and after an iteration. *)
Definition scan_frame (V : list string) (n : nat) (B : frame) : Prop :=
  fills B /\ (forall x, In x V -> B x = Some true) /\ (forall k, (k < n)%nat -> B (collector k) = Some true).

Lemma scan_turn_ok init seqs outer outs refs b s pos :
  legal_scan init seqs outer outs refs b -> (forall n, In n (gnodes b) -> step n) -> NoDup (map aname (gins b)) ->
  (forall o, In o outer -> tracked o = true -> exists r p, sget s (aname o) = Some (r, p) /\ (p <= pos)%nat) ->
  (forall x, In x (body_locals refs outer b) -> sget s x = None) ->
  forall B rest, scan_frame (map aname (firstn (length init) (gins b))) (length (skipn (length init) (gouts b))) B ->
     (forall o, In o (seqs ++ outer) -> has (B :: rest) (aname o) = true) ->
     exists fb B', runs (scan_turn (snd (body_code s pos outer refs b)) init seqs b) (empty :: set empty "i" true :: B :: rest) (fb :: set empty "i" true :: B' :: rest) /\
       scan_frame (map aname (firstn (length init) (gins b))) (length (skipn (length init) (gouts b))) B'.
Proof.
  intros LS Hst ND Hent Hloc B rest (FB & HV & HC) Hout.
  set (M := set empty "i" true). assert (FM : fills M) by (apply fills_set, fills_empty).
  assert (Mi : forall x, M x <> None -> x = "i"%string).
  { intros x Hx. unfold M in Hx. rewrite set_dom in Hx. destruct (string_dec "i" x) as [E|E]; [symmetry; exact E|]. exfalso. apply Hx. split; [reflexivity|exact E]. }
  set (ns := length init) in *. set (V := map aname (firstn ns (gins b))) in *. set (E := map aname (skipn ns (gins b))).
  assert (EG : map aname (gins b) = V ++ E) by (unfold V, E; rewrite <- map_app, firstn_skipn; reflexivity).
  rewrite EG in ND. destruct (NoDup_app_parts _ _ ND) as (NV & NE & NVE).
  pose proof (ls_ins _ _ _ _ _ _ LS) as Li. fold ns in Li. destruct (ls_outs _ _ _ _ _ _ LS) as [Lo1 Lo2]. fold ns in Lo2.
  assert (LE : length E = length seqs) by (unfold E; rewrite map_length, skipn_length; lia).
  assert (LV : length V = ns) by (unfold V; rewrite map_length, firstn_length; lia).
  assert (VM : forall x, In x V -> M x = None).
  { intros x Hx. destruct (M x) eqn:Em; [|reflexivity]. exfalso. assert (x = "i"%string) by (apply Mi; congruence). subst x.
    unfold V in Hx. apply in_map_iff in Hx. destruct Hx as (a & Ea & Ha). exact (proj1 (ls_names _ _ _ _ _ _ LS a Ha) Ea). }
  (* the elements *)
  assert (Hout' : forall o, In o (seqs ++ outer) -> has (M :: B :: rest) (aname o) = true) by (intros o Ho; apply fills_has; [exact FM|exact (Hout o Ho)]).
  destruct (slices_ok (M :: B :: rest)) with (l := combine E seqs) (fb := empty) as (f0 & X0 & F0 & _ & A0 & D0).
  { reflexivity. }
  { exact fills_empty. }
  { intros e a H. apply Hout', in_or_app. left. eapply in_combine_r. exact H. }
  assert (HE : forall x, In x E -> f0 x = Some true).
  { intros x Hx. apply In_nth_error in Hx. destruct Hx as [k Hk]. assert (Hlt : (k < length seqs)%nat) by (rewrite <- LE; apply nth_error_Some; congruence).
    destruct (nth_error seqs k) as [a|] eqn:Ea; [|apply nth_error_None in Ea; lia]. apply (A0 x a). exact (nth_error_combine _ _ k x a Hk Ea). }
  assert (D0' : forall x, f0 x <> None -> In x E).
  { intros x Hx. destruct (D0 x Hx) as [H|H]; [exfalso; apply H; reflexivity|]. apply in_map_iff in H. destruct H as ([e a] & <- & H). eapply in_combine_l. exact H. }
  assert (FV : forall x, In x V -> f0 x = None).
  { intros x Hx. destruct (f0 x) eqn:Ef; [|reflexivity]. exfalso. apply (NVE x Hx), D0'. congruence. }
  (* the body *)
  destruct (body_ok refs outer b s pos (ls_refs _ _ _ _ _ _ LS) (ls_body _ _ _ _ _ _ LS) Hst (ls_shape _ _ _ _ _ _ LS) Hent Hloc) as [RUN _].
  destruct (RUN f0 M B rest F0 FM) as (fb & B1 & X1 & HD & Hfx & Hha & Hft & Hk & HB1 & Hfd).
  { intros x Hx. rewrite EG in Hx. apply in_app_or in Hx. destruct Hx as [Hx|Hx]; [right|left; exact (HE x Hx)].
    split; [exact (FV x Hx)|]. split; [exact (VM x Hx)|exact (HV x Hx)]. }
  { intros o Ho. apply Hout', in_or_app. right; exact Ho. }
  clear RUN. set (ebody := snd (body_code s pos outer refs b)) in *.
  assert (INV : forall x, In x V -> In x (map aname (gins b))) by (intros x Hx; rewrite EG; apply in_or_app; left; exact Hx).
  set (scans := skipn ns (gouts b)) in *. set (nexts := firstn ns (gouts b)).
  assert (LN : length nexts = ns) by (unfold nexts; rewrite firstn_length; lia).
  set (cl := negb (length scans =? 0)%nat).
  assert (Hl : forall v o, In (v, o) (combine V nexts) -> In v V /\ In o (gouts b)).
  { intros v o H. split; [eapply in_combine_l; exact H|]. eapply In_firstn. eapply in_combine_r. exact H. }
  assert (NOSC : cl = false -> length (gouts b) = ns /\ nexts = gouts b).
  { intros Hcl. assert (Hz : length scans = 0%nat) by (unfold cl in Hcl; destruct (Nat.eqb_spec (length scans) 0); [assumption|discriminate]).
    unfold scans in Hz. rewrite skipn_length in Hz. split; [lia|]. unfold nexts. apply firstn_all2. lia. }
  destruct (upd_ok cl V M rest (combine V nexts) fb B1) as (fb2 & B2 & X2 & M2 & A2 & E2 & C2).
  { intros x Hx. split; [apply (Hfx x (INV x Hx)); exact (FV x Hx)|]. split; [exact (VM x Hx)|]. rewrite <- HD, (HV x Hx). discriminate. }
  { intros v o H. exact (proj1 (Hl v o H)). }
  { intros v o H. apply Hha. exact (proj2 (Hl v o H)). }
  { intros Hcl v o H T. destruct (NOSC Hcl) as [Ho1 Ho2]. destruct (in_dec string_dec (aname o) V) as [Hi|Hi].
    - left. destruct (combine_nth_error _ _ _ _ H) as (k & E1 & E3). rewrite Ho2 in E3.
      pose proof (proj2 (ls_states _ _ _ _ _ _ LS Ho1) k o E3 T Hi) as P. rewrite EG in P. rewrite nth_error_app1 in P; [congruence|].
      apply nth_error_Some. congruence.
    - right. apply Hft; [exact (proj2 (Hl v o H))|exact T|]. intros [Hg H0]. rewrite EG in Hg. apply in_app_or in Hg. destruct Hg as [Hg|Hg]; [contradiction|].
      rewrite (HE _ Hg) in H0. discriminate. }
  { intros v o v' o' H H'. apply Hk; [exact (proj2 (Hl v o H))|exact (proj2 (Hl v' o' H'))]. }
  { intros Hcl. destruct (NOSC Hcl) as [Ho1 Ho2]. rewrite combine_snd by lia. rewrite Ho2. exact (proj1 (ls_states _ _ _ _ _ _ LS Ho1)). }
  (* the block after the iteration *)
  assert (INV2 : scan_frame V (length scans) B2).
  { assert (V2 : forall x, In x V -> B2 x = Some true).
    { intros x Hx. apply In_nth_error in Hx. destruct Hx as [k Hk']. assert (Hlt : (k < length nexts)%nat) by (rewrite LN, <- LV; apply nth_error_Some; congruence).
      destruct (nth_error nexts k) as [o|] eqn:Eo; [|apply nth_error_None in Eo; lia]. apply (A2 x o). exact (nth_error_combine _ _ k x o Hk' Eo). }
    assert (O2 : forall x, ~ In x V -> B2 x = B x).
    { intros x Hx. rewrite (E2 x Hx). apply HB1. destruct (in_dec string_dec x E) as [Hi|Hi]; [right; rewrite (HE x Hi); discriminate|left].
      rewrite EG, in_app_iff. tauto. }
    split; [|split; [exact V2|]].
    - intros x. destruct (in_dec string_dec x V) as [Hi|Hi]; [right; exact (V2 x Hi)|rewrite (O2 x Hi); apply FB].
    - intros k Hkk. destruct (in_dec string_dec (collector k) V) as [Hi|Hi]; [exact (V2 _ Hi)|rewrite (O2 _ Hi); exact (HC k Hkk)]. }
  exists (match exec (flat_map (fun ko : nat * arg => [Use (collector (fst ko)) Copied; bare (snd ko)]) (combine (seq 0 (length scans)) scans)) (fb2 :: M :: B2 :: rest) with
          | Some (f :: _) => f | _ => fb2 end), B2. split; [|exact INV2].
  (* the collected values *)
  assert (X3 : exists fb3, exec (flat_map (fun ko : nat * arg => [Use (collector (fst ko)) Copied; bare (snd ko)]) (combine (seq 0 (length scans)) scans)) (fb2 :: M :: B2 :: rest) = Some (fb3 :: M :: B2 :: rest)).
  { destruct (Nat.eq_dec (length scans) 0) as [Hz|Hz]; [rewrite Hz; exists fb2; reflexivity|].
    assert (Hcl : cl = true) by (unfold cl; destruct (Nat.eqb_spec (length scans) 0); [contradiction|reflexivity]).
    rewrite (C2 Hcl) in *. assert (Hs : forall k o, In (k, o) (combine (seq 0 (length scans)) scans) -> In o scans /\ (k < length scans)%nat).
    { intros k o H. split; [eapply in_combine_r; exact H|]. apply in_combine_l, in_seq in H. lia. }
    assert (Hso : forall o, In o scans -> In o (gouts b)) by (intros o Ho; eapply In_skipn; exact Ho).
    destruct (ls_collected _ _ _ _ _ _ LS) as [Hc1 Hc2]. fold ns scans in Hc1, Hc2. fold V in Hc2.
    apply push_ok.
    - intros k o H. destruct (Hs k o H) as [_ Hlt]. split.
      + destruct (fb (collector k)) eqn:Ef; [|reflexivity]. exfalso. assert (Hin : In (collector k) (map aname (gins b) ++ mentioned b ++ flat_map out_of (gnodes b))).
        { apply in_or_app. destruct (Hfd (collector k)) as [H0|H0]; [congruence| |right; exact H0]. left. rewrite EG. apply in_or_app. right. apply D0'. exact H0. }
        exact (ls_collectors _ _ _ _ _ _ LS (collector k) k Hin eq_refl).
      + apply fills_has; [exact FM|]. apply has_top. apply INV2. exact Hlt.
    - intros k o H. destruct (Hs k o H) as [Ho _]. pose proof (Hha o (Hso o Ho)) as H0. cbn in H0 |- *. destruct (fb (aname o)); [exact H0|]. destruct (M (aname o)); [exact H0|].
      destruct (in_dec string_dec (aname o) V) as [Hi|Hi]; [rewrite (proj1 (proj2 INV2) _ Hi); reflexivity|]. rewrite (E2 _ Hi). exact H0.
    - intros k o H T. destruct (Hs k o H) as [Ho _]. apply Hft; [exact (Hso o Ho)|exact T|]. intros [Hg H0]. rewrite EG in Hg. apply in_app_or in Hg. destruct Hg as [Hg|Hg].
      + exact (Hc2 o Ho T Hg).
      + rewrite (HE _ Hg) in H0. discriminate.
    - intros k o k' o' H H'. apply Hk; apply Hso; eapply Hs; eassumption.
    - rewrite combine_snd by (rewrite seq_length; reflexivity). exact Hc1. }
  destruct X3 as (fb3 & X3). rewrite X3. unfold scan_turn. fold ns V E scans nexts cl.
  eapply runs_app; [apply runs_of; exact X0|]. eapply runs_app; [exact X1|]. apply runs_of.
  rewrite exec_app. match goal with |- match ?e with _ => _ end = _ => replace e with (Some (fb2 :: M :: B2 :: rest)) by (symmetry; exact X2) end. exact X3.
Qed.

Lemma scan_step init seqs outer outs refs b :
  legal_scan init seqs outer outs refs b ->
  (forall a, In a (read_by (ScanNode init seqs outer outs refs b)) -> tracked a = true -> registered a = true) ->
  NoDup (body_locals refs outer b) -> (forall n, In n (gnodes b) -> step n) ->
  step (ScanNode init seqs outer outs refs b).
Proof.
  intros LS Hreg Hnd Hst rest D s f pos L SO HD Hr Hs Hl Hfr Hin. set (n := ScanNode init seqs outer outs refs b) in *.
  unfold n in Hfr |- *. rewrite node_locals_scan in Hfr |- *. fold n. cbn [c_outputs initial n] in *.
  assert (RB : forall a, In a init \/ In a seqs \/ In a outer -> In a (read_by n)).
  { intros a H. cbn [read_by n]. rewrite !in_app_iff. tauto. }
  set (ns := length init). set (V := map aname (firstn ns (gins b))).
  assert (NG : NoDup (map aname (gins b))) by exact (NoDup_app_l _ _ (NoDup_app_l _ _ Hnd)).
  assert (EG : map aname (gins b) = V ++ map aname (skipn ns (gins b))) by (unfold V; rewrite <- map_app, firstn_skipn; reflexivity).
  assert (NV : NoDup V) by (rewrite EG in NG; exact (NoDup_app_l _ _ NG)).
  assert (VL : forall x, In x V -> In x (body_locals refs outer b)) by (intros x Hx; apply in_or_app; left; apply in_or_app; left; rewrite EG; apply in_or_app; left; exact Hx).
  assert (TX : forall a, In a (read_by n) -> tracked a = true -> ~ In (aname a) V).
  { intros a Ha T Hx. destruct (Hs a Ha T) as (r & p & E & _). rewrite (Hfr _ (VL _ Hx)) in E. discriminate. }
  (* counting *)
  assert (NR : forall x, nreg n x = (times x (filter registered init) + times x (filter registered seqs) + times x (filter registered outer))%nat).
  { intros x. unfold nreg. cbn [c_inputs n]. rewrite !filter_app_times. lia. }
  assert (TI : forall x, times x (filter tracked init) = times x (filter registered init)) by (intros x; apply times_le_reg; intros a Ha; apply Hreg, RB; tauto).
  assert (INIT1 : forall x, In x (map aname (filter tracked init)) -> (nreg n x + L x <= 1)%nat).
  { intros x Hx. apply in_map_iff in Hx. destruct Hx as (a & <- & Ha). apply filter_In in Ha. apply Hin; tauto. }
  assert (INITN : NoDup (map aname (filter tracked init))).
  { apply (NoDup_count_occ string_dec). intros x. destruct (in_dec string_dec x (map aname (filter tracked init))) as [Hx|Hx].
    - specialize (INIT1 x Hx). rewrite NR in INIT1. fold (times x (filter tracked init)). rewrite TI. lia.
    - rewrite (proj1 (count_occ_not_In string_dec _ _) Hx). lia. }
  assert (KIND : forall a a', In a (read_by n) -> In a' (read_by n) -> aname a = aname a' -> tracked a = tracked a').
  { intros a a' Ha Ha' E. destruct (Hr a Ha) as [(c & Hc & Ec & Tc) _]. destruct (Hr a' Ha') as [(c' & Hc' & Ec' & Tc') _].
    assert (c = c') by (apply (named_once D); auto; congruence). congruence. }
  assert (LIVE : forall a, In a (read_by n) -> has (f :: rest) (aname a) = true).
  { intros a Ha. destruct (Hr a Ha) as [(c & Hc & Ec & Tc) _]. destruct (Hl c Hc) as [P Q]. rewrite Ec, Tc in *.
    destruct (tracked a) eqn:T; [|apply P; reflexivity]. apply Q; [reflexivity|]. left. pose proof (nreg_of n a Ha (Hreg a Ha T)). lia. }
  (* the block of the scan *)
  pose proof (ls_ins _ _ _ _ _ _ LS) as Li. fold ns in Li. destruct (ls_outs _ _ _ _ _ _ LS) as [Lo1 Lo2]. fold ns in Lo2.
  assert (Lv : length V = length init) by (unfold V; rewrite map_length, firstn_length; fold ns; lia).
  set (l := combine V init).
  assert (Hls : map snd l = init) by (apply combine_snd; exact Lv).
  assert (Hl1 : forall v a, In (v, a) l -> In v V /\ In a init).
  { intros v a H. split; [eapply in_combine_l; exact H|eapply in_combine_r; exact H]. }
  destruct (init_ok V l empty (f :: rest)) as (B1 & st1 & X1 & F1 & D1 & _ & A1 & V1 & K1).
  { exact fills_empty. }
  { intros x H. exfalso. apply H. reflexivity. }
  { intros v a H. exact (proj1 (Hl1 v a H)). }
  { intros v a H T. destruct (Hl1 v a H) as [_ Hi]. apply TX; [apply RB; tauto|exact T]. }
  { intros v a H. destruct (Hl1 v a H) as [_ Hi]. apply LIVE, RB. tauto. }
  { intros v a v' a' H H'. destruct (Hl1 v a H), (Hl1 v' a' H'). apply KIND; apply RB; tauto. }
  { rewrite Hls. exact INITN. }
  rewrite Hls in K1, V1.
  assert (LIVE1 : live D st1 (need (fun x => times x (filter registered seqs) + times x (filter registered outer) + L x)%nat SO)).
  { intros c Hc. destruct (Hl c Hc) as [P Q]. destruct (in_dec string_dec (aname c) (map aname (filter tracked init))) as [Hx|Hx].
    - pose proof (INIT1 _ Hx) as H1. rewrite NR in H1. assert (Hp : (0 < times (aname c) (filter registered init))%nat) by (rewrite <- TI; apply times_pos; exact Hx).
      apply in_map_iff in Hx. destruct Hx as (a & Ea & Ha). apply filter_In in Ha. destruct Ha as [Ha Ta].
      destruct (Hr a (RB a ltac:(tauto))) as [(c' & Hc' & Ec' & Tc') NS]. assert (c = c') by (apply (named_once D); auto; congruence). subst c'.
      split; [congruence|]. intros _ [H0|H0]; [lia|]. exfalso. apply NS. rewrite Ea. exact H0.
    - rewrite (K1 _ Hx). split; [exact P|]. intros T [H0|H0]; apply Q; auto; [left|right; exact H0]. rewrite NR. lia. }
  assert (Hout : forall o, In o (seqs ++ outer) -> has (st1) (aname o) = true).
  { intros o Ho. apply in_app_or in Ho. assert (Hro : In o (read_by n)) by (apply RB; tauto).
    destruct (Hr o Hro) as [(c & Hc & Ec & Tc) _]. destruct (LIVE1 c Hc) as [P Q]. rewrite Ec, Tc in *.
    destruct (tracked o) eqn:T; [|apply P; reflexivity]. apply Q; [reflexivity|]. left. specialize (Hreg o Hro T).
    destruct Ho as [Ho|Ho].
    - assert (0 < times (aname o) (filter registered seqs))%nat; [|lia]. apply times_pos, in_map, filter_In. auto.
    - assert (0 < times (aname o) (filter registered outer))%nat; [|lia]. apply times_pos, in_map, filter_In. auto. }
  assert (Hent : forall o, In o outer -> tracked o = true -> exists r p, sget s (aname o) = Some (r, p) /\ (p <= pos)%nat).
  { intros o Ho T. destruct (Hs o (RB o ltac:(tauto)) T) as (r & p & E & Hp & _). eauto. }
  destruct (body_ok refs outer b s pos (ls_refs _ _ _ _ _ _ LS) (ls_body _ _ _ _ _ _ LS) Hst (ls_shape _ _ _ _ _ _ LS) Hent Hfr) as [_ SB].
  assert (TURN := scan_turn_ok init seqs outer outs refs b s pos LS Hst NG Hent Hfr). fold ns V in TURN.
  set (nk := length (skipn ns (gouts b))) in *. set (ks := seq 0 nk).
  pose proof (forward_scan s pos init seqs outer outs refs b) as Ef. fold n in Ef.
  destruct (body_code s pos outer refs b) as [s3 ebody] eqn:Eb. cbn [fst snd] in *. rewrite Ef. cbn [fst snd]. clear Ef.
  (* running it *)
  destruct (lets_new collector (st1) ks B1 F1) as (B2 & X2 & F2 & M2 & A2).
  set (B3 := set B2 "seq_len" true).
  assert (M3 : forall x, B2 x = Some true -> B3 x = Some true) by (intros x Hx; unfold B3, set; destruct (String.eqb _ x); [reflexivity|exact Hx]).
  assert (W3 : scan_frame V nk B3).
  { split; [apply fills_set; exact F2|]. split.
    - intros x Hx. apply M3, M2. apply In_nth_error in Hx. destruct Hx as [k Hk].
      assert (Hlt : (k < length init)%nat) by (rewrite <- Lv; apply nth_error_Some; congruence).
      destruct (nth_error init k) as [a|] eqn:Ea; [|apply nth_error_None in Ea; lia]. apply (A1 x a). exact (nth_error_combine _ _ k x a Hk Ea).
    - intros k Hk. apply M3, A2. unfold ks. apply in_seq. lia. }
  assert (ITER : forall B, scan_frame V nk B -> exists B', scan_frame V nk B' /\
    runs [Let ["i"%string]; Block (scan_turn ebody init seqs b)] (empty :: B :: st1) (set empty "i" true :: B' :: st1)).
  { intros B HB. destruct (TURN B st1 HB) as (fb & B' & XT & HB').
    { intros o Ho. apply fills_has; [exact (proj1 HB)|exact (Hout o Ho)]. }
    exists B'. split; [exact HB'|]. exact (runs_app [Let ["i"%string]] [Block _] _ _ _ (runs_let ["i"%string] empty (B :: st1)) (runs_block _ _ _ _ XT)). }
  destruct (ITER B3 W3) as (B4 & W4 & I4). destruct (ITER B4 W4) as (B5 & W5 & I5).
  set (Bs := both_frames B3 (both_frames B4 B5)). set (rs := both st1 (both st1 st1)).
  assert (WV : forall x, In x V -> Bs x = Some true).
  { intros x Hx. unfold Bs, both_frames. rewrite (proj1 (proj2 W3) x Hx), (proj1 (proj2 W4) x Hx), (proj1 (proj2 W5) x Hx). reflexivity. }
  assert (WC : forall k, In k ks -> Bs (collector k) = Some true).
  { intros k Hk. unfold ks in Hk. apply in_seq in Hk. assert (Hk' : (k < nk)%nat) by lia. unfold Bs, both_frames.
    rewrite (proj2 (proj2 W3) k Hk'), (proj2 (proj2 W4) k Hk'), (proj2 (proj2 W5) k Hk'). reflexivity. }
  destruct (stack_ok rs ks Bs WC) as (B6 & X6 & M6 & A6).
  set (res := firstn (length outs) (combine V (map tracked init) ++ map (fun k => (stacked k, true)) ks)).
  set (fin := map (fun vi : string * bool => mkArg (fst vi) (if snd vi then ScalarTensor F32 else ShapeT 0) VDynamic) res).
  assert (Efin : map (fun vi : string * bool => Use (fst vi) (if snd vi then Moved else Copied)) res = map bare fin).
  { unfold fin. rewrite map_map. apply map_ext. intros [v [|]]; reflexivity. }
  assert (Eall : map fst (combine V (map tracked init) ++ map (fun k => (stacked k, true)) ks) = V ++ map stacked ks).
  { rewrite map_app, map_map. f_equal. apply combine_fst. rewrite map_length. exact Lv. }
  assert (NALL : NoDup (V ++ map stacked ks)).
  { apply NoDup_app_intro_; [exact NV| |].
    - unfold ks. apply FinFun.Injective_map_NoDup; [exact stacked_inj|apply seq_NoDup].
    - intros x Hx Hy. apply in_map_iff in Hy. destruct Hy as (k & <- & _). unfold V in Hx. apply in_map_iff in Hx. destruct Hx as (a & Ea & Ha).
      exact (proj2 (proj2 (ls_names _ _ _ _ _ _ LS a Ha)) k Ea). }
  assert (Hfin : map aname fin = firstn (length outs) (V ++ map stacked ks)).
  { unfold fin. rewrite map_map. cbn [aname]. unfold res. rewrite <- Eall, map_firstn_. reflexivity. }
  assert (NDf : NoDup (map aname fin)).
  { rewrite Hfin. rewrite <- (firstn_skipn (length outs) (V ++ map stacked ks)) in NALL. exact (NoDup_app_l _ _ NALL). }
  assert (Hf6 : forall a, In a fin -> B6 (aname a) = Some true).
  { intros a Ha. assert (Hx : In (aname a) (V ++ map stacked ks)) by (eapply In_firstn; rewrite <- Hfin; apply in_map; exact Ha).
    apply in_app_or in Hx. destruct Hx as [Hx|Hx]; [apply M6, WV; exact Hx|]. apply in_map_iff in Hx. destruct Hx as (k & <- & Hk). exact (A6 k Hk). }
  destruct (bare_ok rs fin B6) as (B7 & X7).
  { intros a Ha. specialize (Hf6 a Ha). split; [intros _; exact Hf6|intros _; apply has_top; exact Hf6]. }
  { clear -NDf. induction fin as [|a r IH]; [constructor|]. cbn in NDf. inversion NDf as [|? ? N1 N2]; subst. cbn. destruct (tracked a); [|exact (IH N2)].
    cbn. constructor; [|exact (IH N2)]. intros H. apply N1. apply in_map_iff in H. destruct H as (c & Ec & Hc). apply filter_In in Hc. rewrite <- Ec. apply in_map. tauto. }
  { intros a a' Ha Ha' E. f_equal. exact (NoDup_map_inj aname fin a a' NDf Ha Ha' E). }
  assert (RUN : runs (scan_code ebody init seqs outs b) (empty :: f :: rest) (B7 :: st1)).
  { apply (runs_same _ _ (B7 :: rs)); [|constructor; [reflexivity|apply same_sym; exact (same3 st1)]].
    unfold scan_code. fold ns V nk ks. fold l res. rewrite Efin.
    eapply runs_app; [apply runs_of; exact X1|]. eapply runs_app; [apply runs_of; exact X2|].
    eapply runs_app; [apply runs_of, exec_copied; intros a Ha; apply fills_has; [exact F2|]; apply Hout, in_or_app; left; eapply In_firstn; exact Ha|].
    eapply runs_app; [apply (runs_let ["seq_len"%string])|]. cbn [fold_left]. fold B3.
    assert (Hsl : has (B3 :: st1) "seq_len" = true) by (apply has_top; unfold B3, set; rewrite String.eqb_refl; reflexivity).
    eapply runs_app.
    { apply (runs_app [Use "seq_len" Copied] _ _ (B3 :: st1)); [apply runs_of; cbn [exec exec1]; rewrite Hsl; reflexivity|]. exact (runs_loop _ _ _ _ _ _ I4 I5). }
    apply runs_of. rewrite exec_app. match goal with |- match ?e with _ => _ end = _ => replace e with (Some (B6 :: rs)) by (symmetry; exact X6) end. exact X7. }
  assert (TRK : forall x, In x (map aname (filter tracked init)) -> trk D x).
  { intros x Hx. apply in_map_iff in Hx. destruct Hx as (a & <- & Ha). apply filter_In in Ha. destruct Ha as [Ha Ta].
    destruct (Hr a (RB a ltac:(tauto))) as [(c & Hc & Ec & Tc) _]. exists c. split; [exact Hc|]. split; [congruence|exact Ec]. }
  assert (VV : evolve (trk D) (f :: rest) st1) by (eapply evolve_weaken; [exact TRK|exact V1]).
  destruct st1 as [|f1 rest1]; [destruct VV|].
  destruct (declared D outs [Block (scan_code ebody init seqs outs b)] f rest f1 rest1 (need L SO)) as (f' & rest' & R1 & R2 & R3).
  { exact (runs_block _ _ _ _ RUN). }
  { apply grown_evolve. exact VV. }
  { eapply live_weaken; [exact LIVE1|]. intros x [Hx|Hx]; [left; lia|right; exact Hx]. }
  exists f', rest'. split; [exact R1|]. split; [exact R2|]. split; [exact R3|].
  eapply spent_but_weaken; [exact SB|]. intros x. unfold n. rewrite takes_scan. lia.
Qed.
