(** Proofs about the generated code of graphs with If nodes. *)
From Verif Require Import IR_Model Scope_Spec Scope_Model Scope_Cond Scope_Proofs.
From Verif Require Export Scope_State.
From Coq Require Import Lia ZifyBool ZifyNat.

Definition live (D : list arg) (st : state) (need : string -> Prop) : Prop :=
  forall b, In b D -> (tracked b = false -> has st (aname b) = true) /\
    (tracked b = true -> need (aname b) -> has st (aname b) = true).
(** The tensors of [D]: the variables that the code may take the value of. *)
Definition trk (D : list arg) (x : string) : Prop := exists b, In b D /\ tracked b = true /\ aname b = x.
(** Counts go down by at most [k], positions stay, nothing new appears. *)
Definition spent (s s' : scope) (k : string -> nat) : Prop :=
  (forall x r p, sget s x = Some (r, p) -> exists r', sget s' x = Some (r', p) /\ (r <= r' + k x)%nat) /\
  (forall x, sget s x = None -> sget s' x = None).
Lemma spent_refl s : spent s s (fun _ => 0%nat).
Proof. split; [intros x r p H; exists r; split; [exact H|lia]|auto]. Qed.
Lemma spent_weaken s s' k k' : spent s s' k -> (forall x, (k x <= k' x)%nat) -> spent s s' k'.
Proof. intros [H1 H2] Hk. split; [|exact H2]. intros x r p H. destruct (H1 x r p H) as (r' & E & Hr). exists r'. split; [exact E|]. specialize (Hk x). lia. Qed.
Lemma spent_trans s1 s2 s3 k1 k2 : spent s1 s2 k1 -> spent s2 s3 k2 -> spent s1 s3 (fun x => (k1 x + k2 x)%nat).
Proof.
  intros [A1 A2] [B1 B2]. split; [|auto]. intros x r p H. destruct (A1 x r p H) as (r1 & E1 & H1). destruct (B1 x r1 p E1) as (r2 & E2 & H2).
  exists r2. split; [exact E2|lia].
Qed.

Lemma use_owned_spent s a pos : spent s (fst (use_owned s a pos)) (fun x => if string_dec (aname a) x then 1%nat else 0%nat).
Proof.
  unfold use_owned. destruct (sget s (aname a)) as [[r p]|] eqn:E; [|eapply spent_weaken; [apply spent_refl|intros; cbn beta; lia]].
  destruct (p <=? pos)%nat; [|eapply spent_weaken; [apply spent_refl|intros; cbn beta; lia]].
  destruct r as [|r']; [eapply spent_weaken; [apply spent_refl|intros; cbn beta; lia]|]. cbn [fst]. split.
  - intros x r p0 H. rewrite sget_sput. destruct (String.eqb_spec (aname a) x) as [<-|Hne].
    + rewrite E in H. injection H as <- <-. exists r'. split; [reflexivity|]. destruct (string_dec (aname a) (aname a)); [lia|congruence].
    + exists r. split; [exact H|lia].
  - intros x H. rewrite sget_sput. destruct (String.eqb_spec (aname a) x) as [<-|Hne]; [congruence|exact H].
Qed.
Lemma use_arg_spent s pos a : spent s (fst (use_arg s pos a)) (fun x => times x (filter tracked [a])).
Proof.
  unfold use_arg. cbn [filter]. destruct (tracked a).
  - pose proof (use_owned_spent s a pos) as H. destruct (use_owned s a pos) as [s' c]. cbn [fst] in *.
    eapply spent_weaken; [exact H|]. intros x. rewrite times_cons. destruct (string_dec (aname a) x); lia.
  - eapply spent_weaken; [apply spent_refl|]. intros; cbn beta; lia.
Qed.

Lemma has_set_other f rest x y b : y <> x -> has (set f x b :: rest) y = has (f :: rest) y.
Proof. intros H. cbn. unfold set. destruct (String.eqb_spec x y); [congruence|reflexivity]. Qed.
Lemma has_top f rest x : f x = Some true -> has (f :: rest) x = true.
Proof. intros H. cbn. rewrite H. reflexivity. Qed.
Lemma named_once (D : list arg) a b : NoDup (map aname D) -> In a D -> In b D -> aname a = aname b -> a = b.
Proof. apply NoDup_map_inj. Qed.

Section Accesses.
  Variable D : list arg.
  Variable pos : nat.
  Variable L : string -> nat.
  Variable SO : string -> Prop.
  Hypothesis HD : NoDup (map aname D).
  Definition lft (acc : list access) (x : string) : nat := (times x (filter tracked (map acc_arg acc)) + L x)%nat.

  Lemma lft_cons c acc x : lft (c :: acc) x = ((if tracked (acc_arg c) then if string_dec (aname (acc_arg c)) x then 1 else 0 else 0) + lft acc x)%nat.
  Proof. unfold lft. cbn [map filter]. destruct (tracked (acc_arg c)); [rewrite times_cons|]; lia. Qed.

  Lemma acc_ok : forall acc s st,
    (forall c, In c acc -> (exists b, In b D /\ aname b = aname (acc_arg c) /\ tracked b = tracked (acc_arg c)) /\ ~ SO (aname (acc_arg c))) ->
    (forall c, In c acc -> tracked (acc_arg c) = true -> exists r p, sget s (aname (acc_arg c)) = Some (r, p) /\ (p <= pos)%nat /\
       (2 <= lft acc (aname (acc_arg c)) -> lft acc (aname (acc_arg c)) <= r)%nat) ->
    live D st (fun x => (0 < lft acc x)%nat \/ SO x) ->
    exists st', exec (snd (gen_accesses s pos acc)) st = Some st' /\ evolve (trk D) st st' /\
      live D st' (fun x => (0 < L x)%nat \/ SO x) /\
      spent s (fst (gen_accesses s pos acc)) (fun x => times x (filter tracked (map acc_arg acc))).
  Proof.
    induction acc as [|c acc IH]; intros s st Hd Hs Hl.
    - exists st. split; [reflexivity|]. split; [apply evolve_refl|]. split; [exact Hl|]. eapply spent_weaken; [apply spent_refl|]. intros; cbn beta; lia.
    - destruct (Hd c (or_introl eq_refl)) as [(b & Hb & Eb & Tb) Hso]. destruct (Hl b Hb) as [Hl0 Hl1]. rewrite Eb in Hl0, Hl1. rewrite Tb in Hl0, Hl1.
      assert (Hhere : tracked (acc_arg c) = true -> lft (c :: acc) (aname (acc_arg c)) = S (lft acc (aname (acc_arg c)))).
      { intros T. rewrite lft_cons, T. destruct (string_dec (aname (acc_arg c)) (aname (acc_arg c))); [reflexivity|congruence]. }
      assert (Hhas : has st (aname (acc_arg c)) = true).
      { destruct (tracked (acc_arg c)) eqn:T; [|apply Hl0; reflexivity]. apply Hl1; [reflexivity|]. left. rewrite Hhere by reflexivity. lia. }
      assert (Hmon : forall x, (lft acc x <= lft (c :: acc) x)%nat) by (intros x; rewrite lft_cons; lia).
      (* the access leaves counts and liveness as needed for the rest *)
      assert (K : exists h s1 st1, gen_access s pos c = (s1, [Use (aname (acc_arg c)) h]) /\
        (match h with Moved => put st (aname (acc_arg c)) false | _ => st end) = st1 /\ evolve (trk D) st st1 /\
        live D st1 (fun x => (0 < lft acc x)%nat \/ SO x) /\
        spent s s1 (fun x => times x (filter tracked [acc_arg c])) /\
        (forall c', In c' acc -> tracked (acc_arg c') = true -> exists r p, sget s1 (aname (acc_arg c')) = Some (r, p) /\ (p <= pos)%nat /\
           (2 <= lft acc (aname (acc_arg c')) -> lft acc (aname (acc_arg c')) <= r)%nat)).
      { assert (Hl' : live D st (fun x => (0 < lft acc x)%nat \/ SO x)).
        { intros b' Hb'. destruct (Hl b' Hb') as [P0 P1]. split; [exact P0|]. intros T Hn. apply P1; [exact T|].
          destruct Hn as [Hn|Hn]; [left|right; exact Hn]. specialize (Hmon (aname b')). lia. }
        assert (Hs' : forall c', In c' acc -> tracked (acc_arg c') = true -> exists r p, sget s (aname (acc_arg c')) = Some (r, p) /\ (p <= pos)%nat /\
           (2 <= lft acc (aname (acc_arg c')) -> lft acc (aname (acc_arg c')) <= r)%nat).
        { intros c' Hc' T. destruct (Hs c' (or_intror Hc') T) as (r & p & E & Hp & Hr). exists r, p. split; [exact E|]. split; [exact Hp|].
          specialize (Hmon (aname (acc_arg c'))). lia. }
        destruct c as [a|a]; cbn [acc_arg] in *; cbn [gen_access].
        - pose proof (use_arg_spent s pos a) as Hsp. unfold use_arg in *. destruct (tracked a) eqn:T.
          + destruct (Hs (Owned a) (or_introl eq_refl) T) as (r & p & E & Hp & Hr). cbn [acc_arg] in *. rewrite Hhere in Hr by reflexivity.
            assert (Hu : use_owned s a pos = match r with S r' => (sput s (aname a) (r', p), (0 <? r')%nat) | O => (s, false) end).
            { unfold use_owned. rewrite E. destruct (Nat.leb_spec p pos); [reflexivity|lia]. }
            rewrite Hu in *.
            assert (Hs1 : forall c', In c' acc -> tracked (acc_arg c') = true ->
              exists r0 p0, sget (fst (match r with S r' => (sput s (aname a) (r', p), (0 <? r')%nat) | O => (s, false) end)) (aname (acc_arg c')) = Some (r0, p0) /\ (p0 <= pos)%nat /\
                (2 <= lft acc (aname (acc_arg c')) -> lft acc (aname (acc_arg c')) <= r0)%nat).
            { intros c' Hc' T'. destruct (Hs' c' Hc' T') as (r1 & p1 & E1 & Hp1 & Hr1). destruct r as [|r']; cbn [fst]; [eauto|].
              rewrite sget_sput. destruct (String.eqb_spec (aname a) (aname (acc_arg c'))) as [En|En]; [|eauto].
              exists r', p. split; [reflexivity|]. split; [exact Hp|]. rewrite <- En. intros H2. lia. }
            assert (Hmv : (lft acc (aname a) <= 0)%nat -> live D (put st (aname a) false) (fun x => (0 < lft acc x)%nat \/ SO x)).
            { intros H0 b' Hb'. destruct (Hl' b' Hb') as [P0 P1]. rewrite has_put by exact Hhas. destruct (String.eqb_spec (aname a) (aname b')) as [En|En].
              - assert (b' = b) by (apply (named_once D); auto; congruence). subst b'. split; [congruence|]. intros _ Hn. rewrite <- En in Hn.
                destruct Hn as [Hn|Hn]; [lia|contradiction].
              - split; assumption. }
            assert (Hev : evolve (trk D) st (put st (aname a) false)) by (apply evolve_put; exists b; auto).
            destruct r as [|r']; cbn [fst] in *.
            * exists Moved, s, (put st (aname a) false). split; [reflexivity|]. split; [reflexivity|]. split; [exact Hev|]. split; [apply Hmv; lia|]. split; [exact Hsp|exact Hs1].
            * destruct (Nat.ltb_spec 0 r') as [Hr'|Hr'].
              -- exists Cloned, (sput s (aname a) (r', p)), st. split; [reflexivity|]. split; [reflexivity|]. split; [apply evolve_refl|]. split; [exact Hl'|]. split; [exact Hsp|exact Hs1].
              -- exists Moved, (sput s (aname a) (r', p)), (put st (aname a) false). split; [reflexivity|]. split; [reflexivity|]. split; [exact Hev|]. split; [apply Hmv; lia|]. split; [exact Hsp|exact Hs1].
          + exists Copied, s, st. split; [reflexivity|]. split; [reflexivity|]. split; [apply evolve_refl|]. split; [exact Hl'|]. split; [exact Hsp|exact Hs'].
        - exists Copied, s, st. split; [reflexivity|]. split; [reflexivity|]. split; [apply evolve_refl|]. split; [exact Hl'|]. split; [|exact Hs'].
          eapply spent_weaken; [apply spent_refl|]. intros; cbn beta; lia. }
      destruct K as (h & s1 & st1 & Eg & Ef & Ev1 & Hl1' & Hsp & Hs1).
      destruct (IH s1 st1 (fun c' H => Hd c' (or_intror H)) Hs1 Hl1') as (st' & Ex & Ev & Hlf & Hsp').
      exists st'. cbn [gen_accesses]. rewrite Eg. destruct (gen_accesses s1 pos acc) as [s2 e2] eqn:E2. cbn [fst snd app] in *.
      split; [|split; [eapply evolve_trans; eassumption|split; [exact Hlf|]]].
      + cbn [exec exec1]. rewrite Hhas. destruct h; [rewrite Ef|rewrite Ef|rewrite Ef]; exact Ex.
      + eapply spent_weaken; [exact (spent_trans _ _ _ _ _ Hsp Hsp')|]. intros x. cbn [map filter]. destruct (tracked (acc_arg c)); [|cbn; lia].
        rewrite !times_cons. change (times x []) with 0%nat. lia.
  Qed.
End Accesses.

(** * One node after the other *)
Definition spent_but (s s' : scope) (k : string -> nat) (X : list string) : Prop :=
  (forall x r p, sget s x = Some (r, p) -> exists r', sget s' x = Some (r', p) /\ (r <= r' + k x)%nat) /\
  (forall x, sget s x = None -> ~ In x X -> sget s' x = None).
Lemma spent_but_of s s' k X : spent s s' k -> spent_but s s' k X.
Proof. intros [A B]. split; auto. Qed.
Lemma spent_but_weaken s s' k k' X : spent_but s s' k X -> (forall x, (k x <= k' x)%nat) -> spent_but s s' k' X.
Proof. intros [H1 H2] Hk. split; [|exact H2]. intros x r p H. destruct (H1 x r p H) as (r' & E & Hr). exists r'. split; [exact E|]. specialize (Hk x). lia. Qed.
Lemma spent_but_trans s1 s2 s3 k1 k2 X Y : spent_but s1 s2 k1 X -> spent_but s2 s3 k2 Y -> spent_but s1 s3 (fun x => (k1 x + k2 x)%nat) (X ++ Y).
Proof.
  intros [A1 A2] [B1 B2]. split.
  - intros x r p H. destruct (A1 x r p H) as (r1 & E1 & H1). destruct (B1 x r1 p E1) as (r2 & E2 & H2). exists r2. split; [exact E2|lia].
  - intros x H Hn. rewrite in_app_iff in Hn. apply B2; [apply A2|]; tauto.
Qed.

Definition need (L : string -> nat) (SO : string -> Prop) (x : string) : Prop := (0 < L x)%nat \/ SO x.
Lemma live_weaken D st (N N' : string -> Prop) : live D st N -> (forall x, N' x -> N x) -> live D st N'.
Proof. intros H Hn b Hb. destruct (H b Hb) as [A B]. split; [exact A|]. intros T Hx. apply B; [exact T|apply Hn; exact Hx]. Qed.
Lemma live_same D s t (N : string -> Prop) : same s t -> live D s N -> live D t N.
Proof. intros E H b Hb. rewrite <- (same_has _ _ (aname b) E). exact (H b Hb). Qed.

Lemma has_declare f rest xs x : has (f :: rest) x = true -> has (fold_left (fun f x => set f x true) xs f :: rest) x = true.
Proof.
  revert f. induction xs as [|y xs IH]; intros f H; [exact H|]. cbn [fold_left]. apply IH. cbn. unfold set.
  destruct (String.eqb y x); [reflexivity|exact H].
Qed.
Lemma live_declare D outs f rest N : live D (f :: rest) N -> live (D ++ outs) (fold_left (fun f x => set f x true) (map aname outs) f :: rest) N.
Proof.
  intros H b Hb. apply in_app_or in Hb. destruct Hb as [Hb|Hb].
  - destruct (H b Hb) as [A B]. split; [intros T; apply has_declare, A; exact T|]. intros T Hn. apply has_declare. apply B; assumption.
  - assert (E : fold_left (fun f x => set f x true) (map aname outs) f (aname b) = Some true) by (apply declare_live; right; apply in_map; exact Hb).
    split; [intros _; apply has_top; exact E|intros _ _; apply has_top; exact E].
Qed.

(** What is asked of the code of one node [n]: it may take the value of the
    tensors of [D], wherever they are declared, and declares its outputs. *)
Definition step (n : cnode) : Prop := forall (rest : state) D s f pos L SO,
  NoDup (map aname D) ->
  (forall a, In a (read_by n) -> (exists b, In b D /\ aname b = aname a /\ tracked b = tracked a) /\ ~ SO (aname a)) ->
  (forall a, In a (read_by n) -> tracked a = true -> exists r p, sget s (aname a) = Some (r, p) /\ (p <= pos)%nat /\
     (2 <= nreg n (aname a) + L (aname a) -> nreg n (aname a) + L (aname a) <= r)%nat) ->
  live D (f :: rest) (need (fun x => nreg n x + L x)%nat SO) ->
  (forall x, In x (node_locals n) -> sget s x = None) ->
  (forall a, In a (initial n) -> tracked a = true -> (nreg n (aname a) + L (aname a) <= 1)%nat) ->
  exists f' rest', runs (snd (forward s pos n)) (f :: rest) (f' :: rest') /\ grown (trk D) (out_of n) (f :: rest) (f' :: rest') /\
    live (D ++ c_outputs n) (f' :: rest') (need L SO) /\
    spent_but s (fst (forward s pos n)) (takes n) (node_locals n).

(** After the code that leaves [D] the outputs are declared. *)
Lemma declared D outs e f rest f1 rest1 (N : string -> Prop) :
  runs e (f :: rest) (f1 :: rest1) -> grown (trk D) [] (f :: rest) (f1 :: rest1) -> live D (f1 :: rest1) N ->
  exists f' rest', runs (e ++ [Let (map aname outs)]) (f :: rest) (f' :: rest') /\ grown (trk D) (map aname outs) (f :: rest) (f' :: rest') /\
    live (D ++ outs) (f' :: rest') N.
Proof.
  intros X G H. eexists. exists rest1. split; [eapply runs_app; [exact X|apply runs_let]|]. split; [|apply live_declare; exact H].
  apply (grown_trans (trk D) (trk D) [] (map aname outs) _ _ _ (fun x Hx => or_introl Hx) G). apply grown_declare.
Qed.

Lemma plain_step ins outs acc :
  (forall x, times x (filter tracked (map acc_arg acc)) <= times x (filter registered ins))%nat -> step (Plain ins outs acc).
Proof.
  intros C rest D s f pos L SO HD Hr Hs Hl _ _. cbn [read_by c_outputs takes node_locals] in *. unfold nreg in *. cbn [c_inputs] in *.
  destruct (acc_ok D pos L SO HD acc s (f :: rest)) as (st1 & E1 & V1 & L1 & S1).
  - intros c Hc. apply Hr. apply in_map. exact Hc.
  - intros c Hc T. destruct (Hs (acc_arg c) (in_map acc_arg acc c Hc) T) as (r & p & E & Hp & Hle). exists r, p. split; [exact E|]. split; [exact Hp|].
    unfold lft. specialize (C (aname (acc_arg c))). lia.
  - eapply live_weaken; [exact Hl|]. intros x [Hx|Hx]; [left|right; exact Hx]. unfold lft in Hx. specialize (C x). lia.
  - cbn [forward]. destruct (gen_accesses s pos acc) as [s1 e1]. cbn [fst snd] in *. destruct st1 as [|f1 rest1]; [destruct V1|].
    destruct (declared D outs e1 f rest f1 rest1 (need L SO)) as (f' & rest' & X & G & H); [apply runs_of; exact E1|apply grown_evolve; exact V1|exact L1|].
    exists f', rest'. split; [exact X|]. split; [exact G|]. split; [exact H|]. apply spent_but_of. exact S1.
Qed.

Lemma NoDup_app_l {A} (a b : list A) : NoDup (a ++ b) -> NoDup a.
Proof. intros H. exact (proj1 (NoDup_app_parts a b H)). Qed.

Lemma list_ok : forall l (rest : state) D s f pos R SO,
  (forall n, In n l -> step n) ->
  NoDup (map aname (D ++ flat_map c_outputs l)) ->
  (forall pre n post a, l = pre ++ n :: post -> In a (read_by n) ->
     (exists b, In b (D ++ flat_map c_outputs pre) /\ aname b = aname a /\ tracked b = tracked a) /\ ~ SO (aname a)) ->
  (forall n a, In n l -> In a (read_by n) -> tracked a = true -> (0 < nreg n (aname a))%nat) ->
  (forall pre n post x, l = pre ++ n :: post -> (takes n x <= nreg n x \/ sreg post x + R x <= 1)%nat) ->
  (forall x k n, nth_error l k = Some n -> (0 < nreg n x)%nat ->
     exists r p, sget s x = Some (r, p) /\ (p <= pos + k)%nat /\ (2 <= sreg l x + R x -> sreg l x + R x <= r)%nat) ->
  live D (f :: rest) (need (fun x => sreg l x + R x)%nat SO) ->
  (forall x, In x (flat_map node_locals l) -> sget s x = None) ->
  NoDup (flat_map node_locals l) ->
  (forall pre n post a, l = pre ++ n :: post -> In a (initial n) -> tracked a = true -> (nreg n (aname a) + (sreg post (aname a) + R (aname a)) <= 1)%nat) ->
  exists f' rest', runs (snd (forward_nodes s pos l)) (f :: rest) (f' :: rest') /\ grown (trk D) (flat_map out_of l) (f :: rest) (f' :: rest') /\
    live (D ++ flat_map c_outputs l) (f' :: rest') (need R SO) /\
    spent_but s (fst (forward_nodes s pos l)) (fun x => fold_right (fun n k => takes n x + k)%nat 0%nat l) (flat_map node_locals l).
Proof.
  induction l as [|n l IH]; intros rest D s f pos R SO Hst Hnd Hord Hc1 Hc2 HA Hl Hfr Hnl Hin.
  - exists f, rest. cbn [flat_map forward_nodes snd fst]. rewrite app_nil_r. split; [apply runs_of; reflexivity|]. split; [apply grown_refl|]. split; [exact Hl|].
    apply spent_but_of. eapply spent_weaken; [apply spent_refl|]. intros; cbn beta; lia.
  - cbn [flat_map] in *. rewrite app_assoc in Hnd.
    destruct (Hst n (or_introl eq_refl) rest D s f pos (fun x => sreg l x + R x)%nat SO) as (f1 & rest1 & E1 & Q1 & L1 & S1).
    + rewrite map_app in Hnd. rewrite map_app in Hnd. exact (NoDup_app_l _ _ (NoDup_app_l _ _ Hnd)).
    + intros a Ha. destruct (Hord [] n l a eq_refl Ha) as [(b & Hb & P) Q]. cbn [flat_map] in Hb. rewrite app_nil_r in Hb. split; [exists b; auto|exact Q].
    + intros a Ha T. destruct (HA (aname a) 0%nat n eq_refl (Hc1 n a (or_introl eq_refl) Ha T)) as (r & p & E & Hp & Hr).
      exists r, p. split; [exact E|]. split; [lia|]. cbn [sreg] in Hr. lia.
    + eapply live_weaken; [exact Hl|]. intros x [Hx|Hx]; [left|right; exact Hx]. cbn [sreg]. lia.
    + intros x Hx. apply Hfr. apply in_or_app. left; exact Hx.
    + intros a. exact (Hin [] n l a eq_refl).
    + destruct (NoDup_app_parts _ _ Hnl) as (_ & Hnl2 & Hnl3). 
      destruct (forward s pos n) as [s1 e1] eqn:Ef. cbn [fst snd] in *. destruct S1 as [S1 S1'].
      destruct (IH rest1 (D ++ c_outputs n) s1 f1 (S pos) R SO) as (f2 & rest2 & E2 & Q2 & L2 & S2).
      * intros m Hm. apply Hst. right; exact Hm.
      * exact Hnd.
      * intros pre m post a -> Ha. destruct (Hord (n :: pre) m post a eq_refl Ha) as [(b & Hb & P) Q]. cbn [flat_map] in Hb. rewrite app_assoc in Hb.
        split; [exists b; auto|exact Q].
      * intros m a Hm. apply Hc1. right; exact Hm.
      * intros pre m post x ->. exact (Hc2 (n :: pre) m post x eq_refl).
      * intros x k m Hk Hpos. destruct (HA x (S k) m Hk Hpos) as (r & p & E & Hp & Hr). destruct (S1 x r p E) as (r' & E' & Hr').
        exists r', p. split; [exact E'|]. split; [lia|]. cbn [sreg] in Hr. destruct (Hc2 [] n l x eq_refl); lia.
      * exact L1.
      * intros x Hx. apply S1'; [apply Hfr; apply in_or_app; right; exact Hx|]. intros Hx'. exact (Hnl3 x Hx' Hx).
      * exact Hnl2.
      * intros pre m post a ->. exact (Hin (n :: pre) m post a eq_refl).
      * cbn [forward_nodes]. rewrite Ef. destruct (forward_nodes s1 (S pos) l) as [s2 e2] eqn:Ef2. cbn [fst snd] in *.
        exists f2, rest2. split; [eapply runs_app; eassumption|]. split; [eapply grown_trans; [|exact Q1|exact Q2]; intros x (b & Hb & T & Eb); apply in_app_or in Hb; destruct Hb as [Hb|Hb]; [left; exists b; auto|right; rewrite <- Eb; apply in_map; exact Hb]|]. split; [rewrite <- app_assoc in L2; exact L2|].
        cbn [fold_right]. eapply spent_but_trans; [split; [exact S1|exact S1']|exact S2].
Qed.

(** * Registration *)
Lemma reg_sub_nodes_eq l : forall pos s, reg_sub_nodes l pos s = reg_nodes l pos s.
Proof. induction l as [|n l IH]; intros pos s; [reflexivity|]. cbn. apply IH. Qed.

Lemma reg_uses_first l pos : forall s x, sget s x = None -> (0 < times x (filter registered l))%nat ->
  sget (reg_uses l pos s) x = Some (times x (filter registered l), pos).
Proof.
  unfold reg_uses. induction l as [|a l IH]; intros s x H Hp; [unfold times in Hp; cbn in Hp; lia|]. cbn [fold_left filter] in *.
  destruct (registered a) eqn:Ra; [|apply IH; assumption]. rewrite times_cons in *. unfold register_future_use at 2. destruct (string_dec (aname a) x) as [->|Hne].
  - rewrite H. pose proof (reg_uses_known l pos (sput s x (1%nat, pos)) x 1%nat pos) as K. unfold reg_uses in K. rewrite K; [reflexivity| |lia].
    rewrite sget_sput, String.eqb_refl. reflexivity.
  - cbn [Nat.add] in *. apply IH; [|exact Hp]. apply String.eqb_neq in Hne.
    destruct (sget s (aname a)) as [[r' p']|]; [destruct (Nat.leb p' pos)|]; rewrite ?sget_sput, ?Hne; exact H.
Qed.

Lemma reg_nodes_first l : forall pos s x, sget s x = None -> ~ In x (flat_map out_of l) -> (0 < sreg l x)%nat ->
  exists k0, sget (reg_nodes l pos s) x = Some (sreg l x, (pos + k0)%nat) /\ (k0 < length l)%nat /\
    forall k n, nth_error l k = Some n -> (0 < nreg n x)%nat -> (k0 <= k)%nat.
Proof.
  induction l as [|m l IH]; intros pos s x H Hx Hp; [cbn in Hp; lia|]. cbn [reg_nodes sreg flat_map length] in *. rewrite in_app_iff in Hx.
  assert (H1 : sget (reg_vars (c_outputs m) (S pos) s) x = None) by (rewrite reg_vars_other; [exact H|unfold out_of in Hx; tauto]).
  destruct (nreg m x) as [|t] eqn:Et.
  - destruct (IH (S pos) (reg_uses (c_inputs m) pos (reg_vars (c_outputs m) (S pos) s)) x) as (k0 & E & Hk & Hf).
    + rewrite reg_uses_other; [exact H1|]. intros Hc. apply times_pos in Hc. unfold nreg in Et. lia.
    + tauto.
    + lia.
    + exists (S k0). split; [rewrite E; cbn [Nat.add]; f_equal; f_equal; lia|]. split; [lia|].
      intros [|k] n Hn Hpos; cbn in Hn; [injection Hn as <-; lia|]. specialize (Hf k n Hn Hpos). lia.
  - exists 0%nat. split; [|split; [lia|intros; lia]].
    rewrite (reg_nodes_known l (S pos) _ x (S t) pos).
    + f_equal. f_equal. lia.
    + rewrite <- Et. unfold nreg. apply reg_uses_first; [exact H1|]. unfold nreg in Et. lia.
    + lia.
    + tauto.
Qed.

Lemma reg_nodes_other l : forall pos s x, ~ In x (flat_map out_of l) -> sreg l x = 0%nat -> sget (reg_nodes l pos s) x = sget s x.
Proof.
  induction l as [|m l IH]; intros pos s x Hx Hz; [reflexivity|]. cbn [reg_nodes sreg flat_map] in *. rewrite in_app_iff in Hx.
  rewrite IH; [|tauto|lia]. rewrite reg_uses_other; [apply reg_vars_other; unfold out_of in Hx; tauto|].
  intros Hc. apply times_pos in Hc. unfold nreg in Hz. lia.
Qed.
Definition reg_returned (l : list arg) (pos : nat) (s : scope) : scope :=
  fold_left (fun s a => match aty a with TensorT _ => register_future_use s a pos | _ => s end) l s.
Lemma reg_returned_other l pos : forall s x, times x (filter is_tensor l) = 0%nat -> sget (reg_returned l pos s) x = sget s x.
Proof.
  unfold reg_returned. induction l as [|a l IH]; intros s x H; [reflexivity|]. cbn [fold_left filter] in *. unfold is_tensor in H at 1.
  destruct (aty a) eqn:Ea; try (apply IH; exact H). rewrite times_cons in H. destruct (string_dec (aname a) x) as [|Hne]; [lia|].
  rewrite IH by exact H. apply String.eqb_neq in Hne. unfold register_future_use.
  destruct (sget s (aname a)) as [[r' p']|]; [destruct (Nat.leb p' pos)|]; rewrite ?sget_sput, ?Hne; reflexivity.
Qed.

(** The uses of a name that is defined by a node are all in later nodes. *)
Section Order.
  Variable I : list string.
  Variable l : list cnode.
  Hypothesis ssa : NoDup (I ++ flat_map out_of l).
  Hypothesis order : forall pre n post a, l = pre ++ n :: post -> In a (c_inputs n) -> registered a = true -> In (aname a) (I ++ flat_map out_of pre).

  Lemma early k n x : nth_error l k = Some n -> In x (out_of n) ->
    forall m, In m (firstn (S k) l) -> ~ In x (map aname (filter registered (c_inputs m))).
  Proof.
    intros Hk Hx m Hm Hc. apply in_map_iff in Hc. destruct Hc as (a & <- & Ha). apply filter_In in Ha. destruct Ha as [Ha Ra].
    apply In_nth_error in Hm. destruct Hm as [j Hj].
    assert (Hjk : (j <= k)%nat).
    { assert (j < length (firstn (S k) l))%nat by (apply nth_error_Some; congruence). rewrite firstn_length in H. lia. }
    assert (Hj' : nth_error l j = Some m).
    { rewrite <- (firstn_skipn (S k) l). rewrite nth_error_app1; [exact Hj|]. apply nth_error_Some. congruence. }
    destruct (nth_error_split l j Hj') as (p1 & p2 & E & Len).
    pose proof (order p1 m p2 a E Ha Ra) as Ho.
    assert (Hsp : l = p1 ++ m :: p2) by exact E.
    assert (Hn : In n (m :: p2)).
    { rewrite Hsp, nth_error_app2 in Hk by lia. eapply nth_error_In. exact Hk. }
    rewrite Hsp, flat_map_app, app_assoc in ssa. destruct (NoDup_app_parts _ _ ssa) as (_ & _ & Hd). apply (Hd _ Ho).
    apply in_flat_map. exists n. split; [exact Hn|exact Hx].
  Qed.
  Lemma sreg_later k n x : nth_error l k = Some n -> In x (out_of n) -> sreg (skipn (S k) l) x = sreg l x.
  Proof.
    intros Hk Hx. pose proof (early k n x Hk Hx) as He. rewrite <- (firstn_skipn (S k) l) at 2. rewrite sreg_app.
    assert (Z : sreg (firstn (S k) l) x = 0%nat); [|lia].
    induction (firstn (S k) l) as [|m r IH]; [reflexivity|]. cbn [sreg]. rewrite IH by (intros; apply He; right; assumption).
    unfold nreg. rewrite times_0; [reflexivity|]. apply He. left; reflexivity.
  Qed.
  Lemma reg_nodes_defined pos s k n b : nth_error l k = Some n -> In b (c_outputs n) -> tracked b = true -> sget s (aname b) = None ->
    sget (reg_nodes l pos s) (aname b) = Some (sreg l (aname b), S (pos + k)).
  Proof.
    intros Hk Hb T Hs. assert (Hx : In (aname b) (out_of n)) by (apply in_map; exact Hb).
    rewrite (reg_nodes_new l pos s k n b Hk Hb T); [rewrite (sreg_later k n _ Hk Hx); reflexivity| |exact Hs|apply (early k n); assumption].
    exact (proj1 (proj2 (NoDup_app_parts _ _ ssa))).
  Qed.
  (** A use comes after the definition. *)
  Lemma use_after k n j m x : nth_error l k = Some n -> In x (out_of n) -> nth_error l j = Some m -> (0 < nreg m x)%nat -> (k < j)%nat.
  Proof.
    intros Hk Hx Hj Hp. destruct (Nat.lt_ge_cases k j) as [H|H]; [exact H|]. exfalso.
    assert (Hm : In m (firstn (S k) l)).
    { apply (nth_error_In _ j). rewrite <- (firstn_skipn (S k) l) in Hj. rewrite nth_error_app1 in Hj; [exact Hj|].
      rewrite firstn_length. assert (k < length l)%nat by (apply nth_error_Some; congruence). lia. }
    apply (early k n x Hk Hx m Hm). unfold nreg, times in Hp. apply (count_occ_In string_dec). exact Hp.
  Qed.
End Order.

(** * The captured values *)
Definition fills (fb : frame) : Prop := forall x, fb x = None \/ fb x = Some true.
Lemma fills_has fb rest x : fills fb -> has rest x = true -> has (fb :: rest) x = true.
Proof. intros H Hh. cbn. destruct (H x) as [->| ->]; [exact Hh|reflexivity]. Qed.
Lemma fills_set fb x : fills fb -> fills (set fb x true).
Proof. intros H y. unfold set. destruct (String.eqb x y); [right; reflexivity|apply H]. Qed.

Lemma bindings_ok used out pos : forall refs outer s fb, length refs = length outer ->
  (forall o, In o outer -> has out (aname o) = true) -> fills fb ->
  exists fb', exec (snd (bindings s pos outer refs [] used)) (fb :: out) = Some (fb' :: out) /\ fills fb' /\
    (forall x, fb x = Some true -> fb' x = Some true) /\
    (forall x o, In (x, o) (filter (fun p => mem_str (fst p) used) (combine refs outer)) -> (forall r, aty o <> ShapeT r) -> fb' x = Some true) /\
    spent s (fst (bindings s pos outer refs [] used))
      (fun x => times x (filter tracked (map snd (filter (fun p => mem_str (fst p) used) (combine refs outer))))).
Proof.
  induction refs as [|x refs IH]; intros outer s fb Hlen Ho Hf.
  - exists fb. cbn. split; [reflexivity|]. split; [exact Hf|]. split; [auto|]. split; [intros ? ? []|]. apply spent_refl.
  - destruct outer as [|o outer]; [discriminate|]. cbn in Hlen. injection Hlen as Hlen.
    assert (Ho' : forall o, In o outer -> has out (aname o) = true) by (intros; apply Ho; right; assumption).
    pose proof (Ho o (or_introl eq_refl)) as Hh. cbn [bindings tl combine filter fst]. change (mem_str x []) with false. cbn [orb].
    destruct (mem_str x used) eqn:Hx; cbn [negb].
    2:{ destruct (IH outer s fb Hlen Ho' Hf) as (fb' & E & F & M & B & S). destruct (bindings s pos outer refs [] used) as [s2 e2]. cbn [fst snd app] in *.
        exists fb'. split; [exact E|]. split; [exact F|]. split; [exact M|]. split; [exact B|exact S]. }
    assert (KEY : forall h s1 k, (h = Cloned \/ h = Copied) -> spent s s1 k -> (forall r, aty o <> ShapeT r) ->
      exists fb', exec (snd (let (s2, e2) := bindings s1 pos outer refs [] used in (s2, [Use (aname o) h; Let [x]] ++ e2))) (fb :: out) = Some (fb' :: out) /\ fills fb' /\
        (forall x, fb x = Some true -> fb' x = Some true) /\
        (forall x0 o0, In (x0, o0) ((x, o) :: filter (fun p => mem_str (fst p) used) (combine refs outer)) -> (forall r, aty o0 <> ShapeT r) -> fb' x0 = Some true) /\
        spent s (fst (let (s2, e2) := bindings s1 pos outer refs [] used in (s2, [Use (aname o) h; Let [x]] ++ e2)))
          (fun y => k y + times y (filter tracked (map snd (filter (fun p => mem_str (fst p) used) (combine refs outer)))))%nat).
    { intros h s1 k Hh' Hs Hty. destruct (IH outer s1 (set fb x true) Hlen Ho' (fills_set fb x Hf)) as (fb' & E & F & M & B & S).
      destruct (bindings s1 pos outer refs [] used) as [s2 e2]. cbn [fst snd app] in *. exists fb'. split; [|split; [exact F|split; [|split]]].
      - cbn [exec exec1]. rewrite (fills_has fb out (aname o) Hf Hh). destruct Hh' as [->| ->]; cbn [exec exec1 declare fold_left]; exact E.
      - intros y Hy. apply M. unfold set. destruct (String.eqb x y); [reflexivity|exact Hy].
      - intros x0 o0 [H|H] Ht; [injection H as <- <-; apply M; unfold set; rewrite String.eqb_refl; reflexivity|exact (B x0 o0 H Ht)].
      - exact (spent_trans _ _ _ _ _ Hs S). }
    cbn [map snd filter].
    destruct (aty o) eqn:Ea.
    + (* scalar on the device *)
      pose proof (use_owned_spent s o pos) as U. destruct (use_owned s o pos) as [s1 c]. cbn [fst] in U.
      assert (T : tracked o = true) by (unfold tracked; rewrite Ea; reflexivity). rewrite T.
      destruct (KEY Cloned s1 _ (or_introl eq_refl) U ltac:(intros r; discriminate)) as (fb' & E & F & M & B & S).
      exists fb'. split; [exact E|]. split; [exact F|]. split; [exact M|]. split; [exact B|]. eapply spent_weaken; [exact S|]. intros y. rewrite times_cons. cbn beta. lia.
    + destruct (KEY Copied s (fun _ => 0%nat) (or_intror eq_refl) (spent_refl s) ltac:(intros r; discriminate)) as (fb' & E & F & M & B & S).
      assert (T : tracked o = false) by (unfold tracked; rewrite Ea; reflexivity). rewrite T.
      exists fb'. split; [exact E|]. split; [exact F|]. split; [exact M|]. split; [exact B|]. eapply spent_weaken; [exact S|]. intros y. cbn beta. lia.
    + destruct (IH outer s fb Hlen Ho' Hf) as (fb' & E & F & M & B & S). destruct (bindings s pos outer refs [] used) as [s2 e2]. cbn [fst snd app] in *.
      assert (T : tracked o = false) by (unfold tracked; rewrite Ea; reflexivity). rewrite T.
      exists fb'. split; [exact E|]. split; [exact F|]. split; [exact M|]. split; [|exact S].
      intros x0 o0 [H|H] Ht; [injection H as <- <-; exfalso; eapply Ht; exact Ea|exact (B x0 o0 H Ht)].
    + pose proof (use_owned_spent s o pos) as U. destruct (use_owned s o pos) as [s1 c]. cbn [fst] in U.
      assert (T : tracked o = true) by (unfold tracked; rewrite Ea; reflexivity). rewrite T.
      destruct (KEY Cloned s1 _ (or_introl eq_refl) U ltac:(intros r; discriminate)) as (fb' & E & F & M & B & S).
      exists fb'. split; [exact E|]. split; [exact F|]. split; [exact M|]. split; [exact B|]. eapply spent_weaken; [exact S|]. intros y. rewrite times_cons. cbn beta. lia.
Qed.

(** The values a branch returns. *)
Lemma bare_ok rest l : forall f,
  (forall a, In a l -> (tracked a = true -> f (aname a) = Some true) /\ (tracked a = false -> has (f :: rest) (aname a) = true)) ->
  NoDup (map aname (filter tracked l)) -> (forall a b, In a l -> In b l -> aname a = aname b -> tracked a = tracked b) ->
  exists f', exec (map bare l) (f :: rest) = Some (f' :: rest).
Proof.
  induction l as [|a l IH]; intros f H N K; [exists f; reflexivity|]. cbn [map].
  destruct (H a (or_introl eq_refl)) as [Ht Hu].
  assert (K' : forall a b, In a l -> In b l -> aname a = aname b -> tracked a = tracked b) by (intros; apply K; [right|right|]; assumption).
  assert (N' : NoDup (map aname (filter tracked l))) by (cbn in N; destruct (tracked a); [inversion N; assumption|exact N]).
  unfold bare at 1. destruct (tracked a) eqn:T.
  - specialize (Ht eq_refl). destruct (IH (set f (aname a) false)) as (f' & E); [|exact N'|exact K'|].
    + intros b Hb. destruct (H b (or_intror Hb)) as [P Q]. assert (Hne : tracked b = true \/ tracked b = false -> aname a <> aname b).
      { intros _ Ee. assert (Tb : tracked b = true) by (rewrite <- (K a b); auto; [left; reflexivity|right; exact Hb]).
        cbn in N. rewrite T in N. inversion N as [|? ? N1 _]; subst. apply N1. rewrite Ee. apply in_map, filter_In. split; assumption. }
      split; intros Tb.
      * unfold set. destruct (String.eqb_spec (aname a) (aname b)); [exfalso; apply Hne; auto|apply P; exact Tb].
      * rewrite has_set_other; [apply Q; exact Tb|]. intros Ee. apply Hne; auto.
    + exists f'. cbn [exec exec1]. rewrite (has_top f rest _ Ht). cbn [put]. rewrite Ht. exact E.
  - specialize (Hu eq_refl). destruct (IH f) as (f' & E); [intros b Hb; apply H; right; exact Hb|exact N'|exact K'|].
    exists f'. cbn [exec exec1]. rewrite Hu. exact E.
Qed.

(** * One branch *)
Definition branch_code (s : scope) (pos : nat) (outer : list arg) (refs : list string) (b : cgraph) : scope * list stmt :=
  let (s1, e1) := bindings s pos outer refs [] (referenced b) in
  let (s3, e3) := forward_nodes (register_subgraph b pos s1) (S pos) (gnodes b) in (s3, e1 ++ e3).

Lemma names_flat D l : map aname (D ++ flat_map c_outputs l) = map aname D ++ flat_map out_of l.
Proof. rewrite map_app. f_equal. induction l as [|n l IH]; [reflexivity|]. cbn [flat_map]. rewrite map_app, IH. reflexivity. Qed.
Lemma named_in D pre x : In x (map aname D ++ flat_map out_of pre) -> exists b, In b (D ++ flat_map c_outputs pre) /\ aname b = x.
Proof. rewrite <- names_flat. intros H. apply in_map_iff in H. destruct H as (b & <- & Hb). exists b. auto. Qed.
Lemma nreg_pos n x : (0 < nreg n x)%nat -> exists a, In a (c_inputs n) /\ registered a = true /\ aname a = x.
Proof.
  unfold nreg, times. intros H. apply (count_occ_In string_dec) in H. apply in_map_iff in H. destruct H as (a & <- & Ha). apply filter_In in Ha.
  exists a. tauto.
Qed.
Lemma nreg_of n a : In a (c_inputs n) -> registered a = true -> (0 < nreg n (aname a))%nat.
Proof. intros H R. unfold nreg. apply times_pos, in_map, filter_In. auto. Qed.
Lemma registered_tracked a : registered a = true -> tracked a = true.
Proof. unfold registered. intros H. apply Bool.andb_true_iff in H. tauto. Qed.
Lemma sreg_pos l x : (0 < sreg l x)%nat -> exists pre n post, l = pre ++ n :: post /\ (0 < nreg n x)%nat.
Proof.
  induction l as [|m l IH]; cbn [sreg]; intros H; [lia|]. destruct (nreg m x) as [|t] eqn:E.
  - destruct (IH ltac:(lia)) as (pre & n & post & -> & Hp). exists (m :: pre), n, post. auto.
  - exists [], m, l. split; [reflexivity|lia].
Qed.

(** * The nodes of a graph *)
Lemma NoDup_app_intro_ {A} (a b : list A) : NoDup a -> NoDup b -> (forall x, In x a -> ~ In x b) -> NoDup (a ++ b).
Proof.
  induction a as [|y a IH]; intros Ha Hb Hd; [exact Hb|]. inversion Ha as [|? ? H1 H2]; subst. cbn. constructor.
  - rewrite in_app_iff. intros [H|H]; [exact (H1 H)|exact (Hd y (or_introl eq_refl) H)].
  - apply IH; auto. intros x Hx. apply Hd. right; exact Hx.
Qed.
Lemma filter_app_times x (P : arg -> bool) l1 l2 : times x (filter P (l1 ++ l2)) = (times x (filter P l1) + times x (filter P l2))%nat.
Proof. unfold times. rewrite filter_app, map_app, count_occ_app. reflexivity. Qed.
Lemma times_flat x l : times x (filter registered (flat_map c_inputs l)) = sreg l x.
Proof. induction l as [|n l IH]; [reflexivity|]. cbn [flat_map sreg]. rewrite filter_app_times, IH. reflexivity. Qed.

Definition covered (n : cnode) : Prop :=
  match n with
  | Plain ins _ acc => forall x, (times x (filter tracked (map acc_arg acc)) <= times x (filter registered ins))%nat
  | _ => forall a, In a (read_by n) -> tracked a = true -> registered a = true
  end.

Section Level.
  Variable g : cgraph.
  Hypothesis L : legal_level g.
  Lemma whole_names : NoDup (map aname (gins g) ++ flat_map out_of (gnodes g)) /\ NoDup (flat_map node_locals (gnodes g)) /\
    (forall x, In x (flat_map node_locals (gnodes g)) -> ~ In x (map aname (gins g) ++ flat_map out_of (gnodes g))).
  Proof.
    pose proof (li_ssa g L) as H.
    assert (K : forall (I : list string) l, NoDup (I ++ flat_map new_names l) ->
      NoDup (I ++ flat_map out_of l) /\ NoDup (flat_map node_locals l) /\ (forall x, In x (flat_map node_locals l) -> ~ In x (I ++ flat_map out_of l))).
    2:{ apply K. exact H. }
    clear. intros I l. revert I. induction l as [|n l IH]; intros I H; cbn [flat_map] in *.
    - split; [exact H|]. split; [constructor|intros x []].
    - assert (En : new_names n = out_of n ++ node_locals n) by reflexivity.
      rewrite En, <- app_assoc in H.
      assert (H' : NoDup ((I ++ out_of n) ++ flat_map new_names l) /\ NoDup (node_locals n) /\
        (forall x, In x (node_locals n) -> ~ In x (I ++ out_of n) /\ ~ In x (flat_map new_names l))).
      { rewrite app_assoc in H. destruct (NoDup_app_parts _ _ H) as (A1 & A2 & A3). destruct (NoDup_app_parts _ _ A2) as (B1 & B2 & B3).
        split; [|split; [exact B1|]].
        - apply NoDup_app_intro_; [exact A1|exact B2|]. intros x Hx Hy. apply (A3 x Hx), in_or_app. right; exact Hy.
        - intros x Hx. split; [|exact (B3 x Hx)]. intros Hy. apply (A3 x Hy), in_or_app. left; exact Hx. }
      destruct H' as (H1 & H2 & H3). destruct (IH _ H1) as (I1 & I2 & I3). rewrite app_assoc. split; [exact I1|].
      assert (Hsub : forall x, In x (flat_map out_of l) \/ In x (flat_map node_locals l) -> In x (flat_map new_names l)).
      { clear. intros x Hx. destruct Hx as [Hx|Hx]; apply in_flat_map in Hx; destruct Hx as (m & Hm & Hx); apply in_flat_map; exists m; (split; [exact Hm|]);
          assert (En : new_names m = out_of m ++ node_locals m) by reflexivity; rewrite En; apply in_or_app; auto. }
      split.
      + apply NoDup_app_intro_; [exact H2|exact I2|]. intros x Hx Hy. destruct (H3 x Hx) as [_ H4]. apply H4, Hsub. right; exact Hy.
      + intros x Hx. apply in_app_or in Hx. destruct Hx as [Hx|Hx]; [|exact (I3 x Hx)]. destruct (H3 x Hx) as [H4 H5].
        intros Hy. apply in_app_or in Hy. destruct Hy as [Hy|Hy]; [exact (H4 Hy)|]. apply H5, Hsub. left; exact Hy.
  Qed.


  Let R x := times x (filter is_tensor (gouts g)).
  Lemma whole_order : forall pre n post a, gnodes g = pre ++ n :: post -> In a (c_inputs n) -> registered a = true ->
    In (aname a) (map aname (gins g) ++ flat_map out_of pre).
  Proof. intros pre n post a E Ha Ra. apply (li_order g L pre n post a E). right. auto. Qed.
  Lemma whole_kind n a c pre post : gnodes g = pre ++ n :: post -> In a (read_by n) \/ In a (filter registered (c_inputs n)) ->
    In c (gins g ++ flat_map c_outputs pre) -> aname c = aname a -> tracked c = tracked a.
  Proof.
    intros Esp Ha Hc E. assert (Hn : In n (gnodes g)) by (rewrite Esp; apply in_or_app; right; left; reflexivity). symmetry.
    apply (li_kind g L n a c Hn); [tauto| |congruence]. apply in_app_or in Hc. destruct Hc as [Hc|Hc]; [left; exact Hc|right].
    apply in_flat_map in Hc. destruct Hc as (m & Hm & Hc). exists m. split; [|exact Hc]. rewrite Esp. apply in_or_app. left; exact Hm.
  Qed.
  Lemma whole_covered n : In n (gnodes g) -> covered n.
  Proof. intros Hn. pose proof (fun x => li_covered g L n x Hn) as C. destruct n; cbn [covered]; [exact C|exact (C ""%string)|exact (C ""%string)|exact (C ""%string)]. Qed.
  Lemma node_names n : In n (gnodes g) -> NoDup (node_locals n).
  Proof.
    intros Hn. destruct whole_names as (_ & NL & _). clear -NL Hn. induction (gnodes g) as [|m l IH]; [destruct Hn|]. cbn [flat_map] in NL.
    destruct (NoDup_app_parts _ _ NL) as (A & B & _). destruct Hn as [->|Hn]; [exact A|exact (IH Hn B)].
  Qed.
  Lemma read_registered n a : In n (gnodes g) -> In a (read_by n) -> tracked a = true -> (0 < nreg n (aname a))%nat.
  Proof.
    intros Hn Ha T. pose proof (whole_covered n Hn) as C. destruct n as [i o acc|cond outer outs refs thn els|count cond init outer outs refs body|init seqs outer outs refs body].
    - specialize (C (aname a)). unfold nreg. cbn [read_by c_inputs] in *.
      assert (0 < times (aname a) (filter tracked (map acc_arg acc)))%nat by (apply times_pos, in_map, filter_In; auto). lia.
    - specialize (C a Ha T). apply nreg_of; [exact Ha|exact C].
    - specialize (C a Ha T). apply nreg_of; [|exact C]. cbn [read_by c_inputs] in *. rewrite !in_app_iff in Ha. unfold present in Ha.
      destruct (is_optional count), (is_optional cond); cbn in Ha |- *; rewrite in_app_iff; tauto.
    - specialize (C a Ha T). apply nreg_of; [exact Ha|exact C].
  Qed.

  Lemma level_ok rest s f pos : (forall n, In n (gnodes g) -> step n) -> scalars_unread g ->
    (forall x k n, nth_error (gnodes g) k = Some n -> (0 < nreg n x)%nat ->
       exists r p, sget s x = Some (r, p) /\ (p <= pos + k)%nat /\ (2 <= sreg (gnodes g) x + R x -> sreg (gnodes g) x + R x <= r)%nat) ->
    live (gins g) (f :: rest) (need (fun x => sreg (gnodes g) x + R x)%nat (scalar_out g)) ->
    (forall x, In x (flat_map node_locals (gnodes g)) -> sget s x = None) ->
    exists f' rest', runs (snd (forward_nodes s pos (gnodes g))) (f :: rest) (f' :: rest') /\ grown (trk (gins g)) (flat_map out_of (gnodes g)) (f :: rest) (f' :: rest') /\
      live (gins g ++ flat_map c_outputs (gnodes g)) (f' :: rest') (need R (scalar_out g)) /\
      spent_but s (fst (forward_nodes s pos (gnodes g))) (fun x => fold_right (fun n k => takes n x + k)%nat 0%nat (gnodes g)) (flat_map node_locals (gnodes g)).
  Proof.
    intros Hst U HA Hl Hfr. destruct whole_names as (SSA & NL & _). apply list_ok; auto.
    - rewrite names_flat. exact SSA.
    - intros pre n post a Esp Ha. pose proof (li_order g L pre n post a Esp (or_introl Ha)) as Ho. destruct (named_in _ _ _ Ho) as (c & Hc & Ec). split.
      + exists c. split; [exact Hc|]. split; [exact Ec|]. apply (whole_kind n a c pre post Esp); auto.
      + intros (o & Ho' & So & Eo). apply (U o n a Ho' So); [rewrite Esp; apply in_or_app; right; left; reflexivity|exact Ha|congruence].
    - exact read_registered.
    - intros pre n post x Esp. pose proof (li_both g L pre n post x Esp) as B. unfold later_uses in B. rewrite times_flat in B. exact B.
    - intros pre n post a Esp Ha T. pose proof (li_init g L pre n post a Esp Ha T) as B. unfold later_uses in B. rewrite times_flat in B. exact B.
  Qed.

  (** Names of subgraphs are not listed by the nodes. *)
  Lemma level_unused x : ~ In x (map aname (gins g) ++ flat_map out_of (gnodes g)) -> sreg (gnodes g) x = 0%nat /\ R x = 0%nat.
  Proof.
    rewrite in_app_iff. intros Hd. split.
    - destruct (sreg (gnodes g) x) as [|t] eqn:Et; [reflexivity|]. exfalso.
      destruct (sreg_pos (gnodes g) x ltac:(lia)) as (pre & n & post & Esp & Hp). destruct (nreg_pos n x Hp) as (a & Ha & Ra & Ea).
      pose proof (whole_order pre n post a Esp Ha Ra) as Ho. rewrite Ea in Ho. apply in_app_or in Ho. apply Hd.
      destruct Ho as [Ho|Ho]; [left; exact Ho|right]. rewrite Esp, flat_map_app. apply in_or_app. left; exact Ho.
    - unfold R. destruct (times x (filter is_tensor (gouts g))) as [|t] eqn:Et; [reflexivity|]. exfalso.
      assert (Hin : In x (map aname (filter is_tensor (gouts g)))) by (apply (count_occ_In string_dec); unfold times in Et; rewrite Et; lia).
      apply in_map_iff in Hin. destruct Hin as (a & Ea & Ha). apply filter_In in Ha. destruct Ha as [Ha _].
      destruct (li_outputs g L a Ha) as (c & Ec & _ & Hc). apply Hd. rewrite <- Ea, <- Ec.
      destruct Hc as [Hc|(m & Hm & Hc)]; [left; apply in_map; exact Hc|right]. apply in_flat_map. exists m. split; [exact Hm|apply in_map; exact Hc].
  Qed.
End Level.

Definition branch_locals (refs : list string) (outer : list arg) (b : cgraph) : list string := locals refs outer b ++ flat_map node_locals (gnodes b).
Definition branch_takes (refs : list string) (outer : list arg) (b : cgraph) (x : string) : nat :=
  (times x (filter tracked (map snd (taken refs outer b))) + (fold_right (fun m k => takes m x + k) 0 (gnodes b) - later_uses b (gnodes b) x))%nat.

Lemma branch_ok refs outer b s out pos :
  length refs = length outer -> legal_branch refs outer b -> (forall n, In n (gnodes b) -> step n) ->
  (forall o, In o outer -> has out (aname o) = true) ->
  (forall o, In o outer -> tracked o = true -> exists r p, sget s (aname o) = Some (r, p) /\ (p <= pos)%nat) ->
  (forall x, In x (branch_locals refs outer b) -> sget s x = None) ->
  exists fb, runs (snd (branch_code s pos outer refs b) ++ map bare (gouts b)) (empty :: out) (fb :: out) /\
    spent_but s (fst (branch_code s pos outer refs b)) (branch_takes refs outer b) (branch_locals refs outer b).
Proof.
  intros Hlen (Hgi & (L & O & U) & Hshape) Hst Hout Hent Hloc.
  set (g := CGraph (captured refs outer b) (gnodes b) (gouts b)) in *.
  destruct (bindings_ok (referenced b) out pos refs outer s empty Hlen Hout (fun x => or_introl eq_refl)) as (fb & Eb & Fb & _ & Bb & Sb).
  change (filter (fun p => mem_str (fst p) (referenced b)) (combine refs outer)) with (taken refs outer b) in *.
  unfold branch_code. destruct (bindings s pos outer refs [] (referenced b)) as [s1 e1] eqn:E1. cbn [fst snd] in *.
  set (R := fun x => times x (filter is_tensor (gouts b))).
  assert (E2 : register_subgraph b pos s1 = reg_returned (gouts b) (pos + length (gnodes b)) (reg_nodes (gnodes b) pos s1)).
  { unfold register_subgraph. rewrite Hgi. cbn [reg_vars fold_left]. rewrite reg_sub_nodes_eq. reflexivity. }
  rewrite E2. set (s2 := reg_returned _ _ _) in *.
  destruct (whole_names g L) as (SSA & NL & NLD). cbn [gins gnodes g] in SSA, NL, NLD.
  assert (ORD : forall pre n post a, gnodes b = pre ++ n :: post -> In a (c_inputs n) -> registered a = true ->
            In (aname a) (map aname (captured refs outer b) ++ flat_map out_of pre)).
  { intros pre n post a E Ha Ra. apply (li_order g L pre n post a E). right. auto. }
  (* captured values *)
  assert (CAP : forall c, In c (captured refs outer b) -> exists o, In (aname c, o) (taken refs outer b) /\ In o outer /\ aty c = aty o /\ tracked c = tracked o).
  { intros c Hc. unfold captured in Hc. apply in_map_iff in Hc. destruct Hc as ([x o] & <- & Hp). exists o. cbn [aname fst snd aty].
    split; [exact Hp|]. split; [|split; reflexivity]. unfold taken in Hp. apply filter_In in Hp. eapply in_combine_r. exact (proj1 Hp). }
  assert (LOC : forall x o, In (x, o) (taken refs outer b) -> x <> aname o -> In x (branch_locals refs outer b)).
  { intros x o Hp Hne. unfold branch_locals, locals. apply in_or_app. left. apply in_or_app. left. apply in_map_iff. exists (x, o). split; [reflexivity|]. apply filter_In. split; [exact Hp|].
    cbn [fst snd]. apply String.eqb_neq in Hne. rewrite Hne. reflexivity. }
  assert (OUTL : forall x, In x (flat_map out_of (gnodes b)) -> In x (branch_locals refs outer b)) by (intros x Hx; apply in_or_app; left; apply in_or_app; right; exact Hx).
  assert (INL : forall x, In x (flat_map node_locals (gnodes b)) -> In x (branch_locals refs outer b)) by (intros x Hx; apply in_or_app; right; exact Hx).
  assert (NOUT : forall c, In c (captured refs outer b) -> ~ In (aname c) (flat_map out_of (gnodes b))).
  { intros c Hc. apply (proj2 (proj2 (NoDup_app_parts _ _ SSA))). apply in_map. exact Hc. }
  (* entries after registration *)
  assert (REG : forall x k n, nth_error (gnodes b) k = Some n -> (0 < nreg n x)%nat ->
     exists r p, sget s2 x = Some (r, p) /\ (p <= S pos + k)%nat /\ (sreg (gnodes b) x + R x <= r)%nat).
  { intros x k n Hk Hp. destruct (nreg_pos n x Hp) as (a & Ha & Ra & Ea).
    destruct (nth_error_split _ _ Hk) as (pre & post & Esp & Hl). 
    pose proof (ORD pre n post a Esp Ha Ra) as Ho. rewrite Ea in Ho. destruct (named_in _ _ _ Ho) as (c & Hc & Ec).
    assert (Hn : In n (gnodes b)) by (eapply nth_error_In; exact Hk).
    assert (Tc : tracked c = true).
    { rewrite <- (registered_tracked a Ra). symmetry. apply (li_kind g L n a c Hn); [right; left; apply filter_In; auto| |congruence].
      apply in_app_or in Hc. destruct Hc as [Hc|Hc]; [left; exact Hc|right]. apply in_flat_map in Hc. destruct Hc as (m & Hm & Hc).
      exists m. split; [|exact Hc]. cbn [gnodes g]. rewrite Esp. apply in_or_app. left; exact Hm. }
    assert (Hkl : (k < length (gnodes b))%nat) by (apply nth_error_Some; congruence).
    assert (OUTS : forall r p, sget (reg_nodes (gnodes b) pos s1) x = Some (r, p) -> (p <= pos + length (gnodes b))%nat -> sget s2 x = Some ((r + R x)%nat, p)).
    { intros r p E Hpp. unfold s2, R. apply reg_outs_known; assumption. }
    apply in_app_or in Hc. destruct Hc as [Hc|Hc].
    - destruct (CAP c Hc) as (o & Hpo & Hoo & _ & To). rewrite Ec in Hpo. rewrite Tc in To. symmetry in To. pose proof (NOUT c Hc) as No. rewrite Ec in No.
      destruct (string_dec x (aname o)) as [Eo|Ne].
      + destruct (Hent o Hoo To) as (r & p & E & Hpp). rewrite <- Eo in E. destruct (proj1 Sb x r p E) as (r1 & Er1 & _).
        exists (r1 + sreg (gnodes b) x + R x)%nat, p. split; [|lia]. apply OUTS; [|lia]. apply reg_nodes_known; auto.
      + assert (En : sget s1 x = None) by (apply (proj2 Sb), Hloc; eapply LOC; [exact Hpo|exact Ne]).
        assert (Hsr : (0 < sreg (gnodes b) x)%nat) by (rewrite Esp, sreg_app; cbn [sreg]; lia).
        destruct (reg_nodes_first (gnodes b) pos s1 x En No Hsr) as (k0 & E & Hk0 & Hmin).
        exists (sreg (gnodes b) x + R x)%nat, (pos + k0)%nat. split; [apply OUTS; [exact E|lia]|]. specialize (Hmin k n Hk Hp). lia.
    - apply in_flat_map in Hc. destruct Hc as (m & Hm & Hc). apply In_nth_error in Hm. destruct Hm as [j Hj].
      assert (Hjk : (j < k)%nat) by (rewrite <- Hl; apply nth_error_Some; congruence).
      assert (Hj' : nth_error (gnodes b) j = Some m) by (rewrite Esp, nth_error_app1 by lia; exact Hj).
      assert (Hx : In x (flat_map out_of (gnodes b))) by (apply in_flat_map; exists m; split; [eapply nth_error_In; exact Hj'|rewrite <- Ec; apply in_map; exact Hc]).
      assert (En : sget s1 (aname c) = None) by (rewrite Ec; apply (proj2 Sb), Hloc, OUTL; exact Hx).
      pose proof (reg_nodes_defined (map aname (captured refs outer b)) (gnodes b) SSA ORD pos s1 j m c Hj' Hc Tc En) as E. rewrite Ec in E.
      exists (sreg (gnodes b) x + R x)%nat, (S (pos + j)). split; [apply OUTS; [exact E|lia]|]. lia. }
  assert (UNUSED : forall x, ~ In x (map aname (captured refs outer b) ++ flat_map out_of (gnodes b)) -> sget s2 x = sget s1 x /\ sreg (gnodes b) x = 0%nat /\ R x = 0%nat).
  { intros x Hx. destruct (level_unused g L x Hx) as [Z Z']. cbn [gnodes gouts g] in Z, Z'. rewrite in_app_iff in Hx.
    split; [|split; [exact Z|exact Z']]. unfold s2. rewrite reg_returned_other by exact Z'. apply reg_nodes_other; [tauto|exact Z]. }
  destruct (level_ok g L out s2 fb (S pos)) as (f2 & out' & X2 & Q2 & L2 & S2).
  - exact Hst.
  - exact U.
  - intros x k n Hk Hp. destruct (REG x k n Hk Hp) as (r & p & E & Hpp & Hr). exists r, p. split; [exact E|]. split; [exact Hpp|]. intros _. exact Hr.
  - intros c Hc. destruct (CAP c Hc) as (o & Hpo & Hoo & Ty & To). rewrite To.
    assert (Hnot : (forall r, aty o <> ShapeT r) -> fb (aname c) = Some true) by (exact (Bb (aname c) o Hpo)).
    split; intros T.
    + destruct (aty o) eqn:Ea; try (apply has_top, Hnot; intros r'; discriminate).
      rewrite (Hshape _ _ _ Hpo Ea). apply fills_has; [exact Fb|apply Hout; exact Hoo].
    + intros _. apply has_top, Hnot. intros r' Ea. unfold tracked in T. rewrite Ea in T. discriminate.
  - intros x Hx. cbn [gnodes g] in Hx. destruct (UNUSED x (NLD x Hx)) as [Eq _]. rewrite Eq. apply (proj2 Sb), Hloc, INL. exact Hx.
  - destruct (forward_nodes s2 (S pos) (gnodes b)) as [s3 e3] eqn:E3. cbn [gins gnodes gouts g] in X2, Q2, L2, S2. rewrite E3 in X2, S2. cbn [fst snd] in *.
    assert (FB : forall c, In c (captured refs outer b) -> tracked c = true -> fb (aname c) = Some true).
    { intros c Hc T. destruct (CAP c Hc) as (o & Hpo & _ & _ & To). apply (Bb (aname c) o Hpo). intros r' Ea. rewrite To in T. unfold tracked in T. rewrite Ea in T. discriminate. }
    destruct Q2 as (Q2d & _ & Q2e). apply evolve_none in Q2e; [|intros x ((c & Hc & T & Ec) & Hn); rewrite <- Ec, (FB c Hc T) in Hn; discriminate].
    (* what is returned *)
    destruct (bare_ok out' (gouts b) f2) as (f3 & X3).
    + intros a Ha. destruct (li_outputs g L a Ha) as (c & Ec & Tc & Hc).
      assert (Hc' : In c (captured refs outer b ++ flat_map c_outputs (gnodes b))).
      { apply in_or_app. destruct Hc as [Hc|(m & Hm & Hc)]; [left; exact Hc|right]. apply in_flat_map. exists m. auto. }
      destruct (L2 c Hc') as [P Q]. rewrite Ec, Tc in *. split; [|exact P]. intros T.
      assert (Hd : f2 (aname a) <> None).
      { rewrite Q2d. intros [Hn Ho]. apply in_app_or in Hc'. destruct Hc' as [Hc'|Hc']; [rewrite <- Ec, (FB c Hc' (eq_trans Tc T)) in Hn; discriminate|].
        apply Ho. apply in_flat_map in Hc'. destruct Hc' as (m & Hm & Hcm). apply in_flat_map. exists m. split; [exact Hm|]. rewrite <- Ec. apply in_map. exact Hcm. }
      cut (has (f2 :: out') (aname a) = true); [cbn; destruct (f2 (aname a)) as [v|]; [intros ->; reflexivity|congruence]|]. apply Q; [exact T|].
      unfold tracked in T. destruct (aty a) eqn:Ea; try discriminate.
      * right. exists a. split; [exact Ha|]. split; [unfold is_scalar_tensor; rewrite Ea; reflexivity|reflexivity].
      * left. unfold R. apply times_pos, in_map, filter_In. split; [exact Ha|]. unfold is_tensor. rewrite Ea. reflexivity.
    + exact O.
    + intros a a' Ha Ha' En. destruct (li_outputs g L a Ha) as (c & Ec & Tc & Hc). destruct (li_outputs g L a' Ha') as (c' & Ec' & Tc' & Hc').
      assert (c = c'); [|congruence]. rewrite <- names_flat in SSA. apply (NoDup_map_inj aname _ c c' SSA); [| |congruence]; apply in_or_app.
      * destruct Hc as [Hc|(m & Hm & Hc)]; [left; exact Hc|right]. apply in_flat_map. exists m. auto.
      * destruct Hc' as [Hc'|(m & Hm & Hc')]; [left; exact Hc'|right]. apply in_flat_map. exists m. auto.
    + exists f3. split.
      { rewrite <- app_assoc. eapply runs_app; [apply runs_of; exact Eb|]. eapply runs_app; [exact X2|]. eapply runs_same; [apply runs_of; exact X3|].
        constructor; [reflexivity|apply same_sym; exact Q2e]. }
      (* names that are not in the branch *)
      assert (NOCAP : forall x, ~ In x (flat_map out_of (gnodes b)) -> (forall o, In (x, o) (taken refs outer b) -> tracked o = false) ->
                sget s2 x = sget s1 x /\ sreg (gnodes b) x = 0%nat /\ R x = 0%nat).
      { intros x No Hc.
        assert (CC : forall c, In c (captured refs outer b) -> aname c = x -> tracked c = false).
        { intros c Hcc Ec. destruct (CAP c Hcc) as (o & Hpo & _ & _ & To). rewrite Ec in Hpo. rewrite To. exact (Hc o Hpo). }
        assert (Z : sreg (gnodes b) x = 0%nat).
        { destruct (sreg (gnodes b) x) as [|t] eqn:Et; [reflexivity|]. exfalso.
          destruct (sreg_pos (gnodes b) x ltac:(lia)) as (pre & n & post & Esp & Hp). destruct (nreg_pos n x Hp) as (a & Ha & Ra & Ea).
          pose proof (ORD pre n post a Esp Ha Ra) as Ho. rewrite Ea in Ho. apply in_app_or in Ho. destruct Ho as [Ho|Ho].
          - apply in_map_iff in Ho. destruct Ho as (c & Ec & Hcc). specialize (CC c Hcc Ec).
            assert (tracked a = tracked c).
            { assert (Hn : In n (gnodes b)) by (rewrite Esp; apply in_or_app; right; left; reflexivity).
              apply (li_kind g L n a c Hn); [right; left; apply filter_In; auto|left; exact Hcc|congruence]. }
            rewrite (registered_tracked a Ra) in H. congruence.
          - apply No. rewrite Esp, flat_map_app. apply in_or_app. left; exact Ho. }
        assert (Z' : R x = 0%nat).
        { unfold R. destruct (times x (filter is_tensor (gouts b))) as [|t] eqn:Et; [reflexivity|]. exfalso.
          assert (Hin : In x (map aname (filter is_tensor (gouts b)))) by (apply (count_occ_In string_dec); unfold times in Et; rewrite Et; lia).
          apply in_map_iff in Hin. destruct Hin as (a & Ea & Ha). apply filter_In in Ha. destruct Ha as [Ha Ta].
          destruct (li_outputs g L a Ha) as (c & Ec & Tc & Hcc). assert (Taa : tracked a = true) by (unfold is_tensor in Ta; unfold tracked; destruct (aty a); congruence).
          destruct Hcc as [Hcc|(m & Hm & Hcc)].
          - specialize (CC c Hcc). rewrite Ec in CC. specialize (CC Ea). congruence.
          - apply No. apply in_flat_map. exists m. split; [exact Hm|]. rewrite <- Ea, <- Ec. apply in_map. exact Hcc. }
        split; [|split; [exact Z|exact Z']]. unfold s2. rewrite reg_returned_other by exact Z'. apply reg_nodes_other; assumption. }
      assert (SPLIT : forall x, (exists o, In (x, o) (taken refs outer b) /\ tracked o = true) \/ (forall o, In (x, o) (taken refs outer b) -> tracked o = false)).
      { intros x. clear. induction (taken refs outer b) as [|[y o] l IH]; [right; intros o []|].
        destruct IH as [(o' & Ho & T)|IH]; [left; exists o'; split; [right; exact Ho|exact T]|].
        destruct (string_dec x y) as [<-|Hne].
        - destruct (tracked o) eqn:T; [left; exists o; split; [left; reflexivity|exact T]|right].
          intros o' [H|H]; [congruence|exact (IH o' H)].
        - right. intros o' [H|H]; [congruence|exact (IH o' H)]. }
      split.
      * intros x r p E. destruct (proj1 Sb x r p E) as (r1 & Er1 & Hr1).
        assert (No : ~ In x (flat_map out_of (gnodes b))) by (intros Hx; rewrite (Hloc x (OUTL x Hx)) in E; discriminate).
        assert (Hs2 : exists r2, sget s2 x = Some (r2, p) /\ (r1 + (sreg (gnodes b) x + R x) <= r2)%nat).
        { destruct (SPLIT x) as [(o & Ho & To)|Hno].
          - assert (Exo : x = aname o).
            { destruct (string_dec x (aname o)) as [Ex|Ne]; [exact Ex|]. rewrite (Hloc x (LOC x o Ho Ne)) in E. discriminate. }
            assert (Hoo : In o outer) by (unfold taken in Ho; apply filter_In in Ho; eapply in_combine_r; exact (proj1 Ho)).
            destruct (Hent o Hoo To) as (r' & p' & E' & Hp'). rewrite <- Exo, E in E'. injection E' as <- <-.
            exists (r1 + sreg (gnodes b) x + R x)%nat. split; [|lia]. unfold s2, R. apply reg_outs_known; [|lia]. apply reg_nodes_known; auto.
          - destruct (NOCAP x No Hno) as (Eq & Z & Z'). exists r1. rewrite Eq. split; [exact Er1|lia]. }
        destruct Hs2 as (r2 & Er2 & Hr2). destruct (proj1 S2 x r2 p Er2) as (r3 & Er3 & Hr3). exists r3. split; [exact Er3|].
        unfold branch_takes, later_uses. rewrite times_flat. unfold R, is_tensor in Hr2. cbv beta in Hr3. lia.
      * intros x E Hx. apply (proj2 S2); [|intros H; apply Hx, INL, H].
        assert (No : ~ In x (flat_map out_of (gnodes b))) by (intros H; apply Hx, OUTL, H).
        destruct (SPLIT x) as [(o & Ho & To)|Hno].
        -- exfalso. destruct (string_dec x (aname o)) as [Ex|Ne]; [|apply Hx; exact (LOC x o Ho Ne)].
           assert (Hoo : In o outer) by (unfold taken in Ho; apply filter_In in Ho; eapply in_combine_r; exact (proj1 Ho)).
           destruct (Hent o Hoo To) as (r' & p' & E' & _). rewrite <- Ex in E'. congruence.
        -- destruct (NOCAP x No Hno) as (Eq & _). rewrite Eq. apply (proj2 Sb). exact E.
Qed.

(** * One If node *)
Definition sub_nodes := fix nodes (s : scope) (pos : nat) (l : list cnode) : scope * list stmt :=
    match l with
    | [] => (s, [])
    | m :: r => let (s1, e1) := forward s (S pos) m in let (s2, e2) := nodes s1 (S pos) r in (s2, e1 ++ e2)
    end.
Lemma sub_nodes_eq l : forall s pos, sub_nodes s pos l = forward_nodes s (S pos) l.
Proof. induction l as [|m l IH]; intros s pos; [reflexivity|]. cbn [sub_nodes forward_nodes]. destruct (forward s (S pos) m) as [s1 e1]. rewrite IH. reflexivity. Qed.

Definition branch_code' (s : scope) (pos : nat) (outer : list arg) (refs : list string) (b : cgraph) : scope * list stmt :=
  match b with
  | CGraph gi gn go =>
      let (s1, e1) := bindings s pos outer refs [] (referenced b) in
      let s2 := register_subgraph b pos s1 in
      let (s3, e3) := sub_nodes s2 pos gn in (s3, e1 ++ e3)
  end.
Lemma branch_code_eq s pos outer refs b : branch_code' s pos outer refs b = branch_code s pos outer refs b.
Proof.
  destruct b as [gi gn go]. unfold branch_code', branch_code. cbn [gnodes]. destruct (bindings _ _ _ _ _ _). cbv zeta. rewrite sub_nodes_eq. reflexivity.
Qed.
Lemma forward_if s pos cond outer outs refs thn els : forward s pos (IfNode cond outer outs refs thn els) =
  let (s1, e1) := use_arg s pos cond in
  let (s2, e2) := branch_code s1 pos outer refs thn in
  let (s3, e3) := branch_code s2 pos outer refs els in
  (s3, e1 ++ [If_ (e2 ++ map bare (gouts thn)) (e3 ++ map bare (gouts els)); Let (map aname outs)]).
Proof.
  transitivity (let (s1, e1) := use_arg s pos cond in
    let (s2, e2) := branch_code' s1 pos outer refs thn in
    let (s3, e3) := branch_code' s2 pos outer refs els in
    (s3, e1 ++ [If_ (e2 ++ map bare (gouts thn)) (e3 ++ map bare (gouts els)); Let (map aname outs)])); [reflexivity|].
  destruct (use_arg s pos cond) as [s1 e1]. rewrite branch_code_eq. destruct (branch_code s1 pos outer refs thn) as [s2 e2]. rewrite branch_code_eq. reflexivity.
Qed.

Lemma exec_if a b l s : exec (If_ a b :: l) s =
  match option_map (@tl frame) (exec a (empty :: s)), option_map (@tl frame) (exec b (empty :: s)) with
  | Some s1, Some s2 => exec l (both s1 s2) | _, _ => None end.
Proof.
  transitivity (match (match option_map (@tl frame) (exec a (empty :: s)), option_map (@tl frame) (exec b (empty :: s)) with
    Some s1, Some s2 => Some (both s1 s2) | _, _ => None end) with None => None | Some s' => exec l s' end); [reflexivity|].
  destruct (exec a (empty :: s)); [|reflexivity]. destruct (exec b (empty :: s)); reflexivity.
Qed.

Lemma node_locals_if cond outer outs refs thn els :
  node_locals (IfNode cond outer outs refs thn els) = branch_locals refs outer thn ++ branch_locals refs outer els.
Proof. destruct thn, els. reflexivity. Qed.
Lemma takes_if cond outer outs refs thn els x : takes (IfNode cond outer outs refs thn els) x =
  (times x (filter tracked [cond]) + branch_takes refs outer thn x + branch_takes refs outer els x)%nat.
Proof. destruct thn, els. reflexivity. Qed.
Lemma legal_if cond outer outs refs thn els : legal_node (IfNode cond outer outs refs thn els) ->
  length refs = length outer /\ (legal_branch refs outer thn /\ forall n, In n (gnodes thn) -> legal_node n) /\
  (legal_branch refs outer els /\ forall n, In n (gnodes els) -> legal_node n).
Proof.
  assert (K : forall l, fold_right (fun m P => legal_node m /\ P) True l -> forall n, In n l -> legal_node n).
  { induction l as [|m l IH]; [intros _ n []|]. intros [A B] n [<-|Hn]; [exact A|exact (IH B n Hn)]. }
  destruct thn as [gi gn go], els as [hi hn ho]. intros (A & (B & B') & C & C'). split; [exact A|]. split; (split; [assumption|apply K; assumption]).
Qed.

Lemma if_step cond outer outs refs thn els :
  length refs = length outer -> legal_branch refs outer thn -> legal_branch refs outer els ->
  (forall a, In a (cond :: outer) -> tracked a = true -> registered a = true) ->
  NoDup (branch_locals refs outer thn ++ branch_locals refs outer els) ->
  (forall n, In n (gnodes thn) -> step n) -> (forall n, In n (gnodes els) -> step n) ->
  step (IfNode cond outer outs refs thn els).
Proof.
  intros Hlen Lt Le Hreg Hnd St Se rest D s f pos L SO HD Hr Hs Hl Hfr _.
  rewrite node_locals_if in *. cbn [read_by c_outputs] in *. set (n := IfNode cond outer outs refs thn els) in *.
  set (L' := fun x => (times x (filter registered outer) + L x)%nat).
  assert (Ecount : forall x, lft L' [Owned cond] x = (nreg n x + L x)%nat).
  { intros x. unfold lft, L', nreg. cbn [map acc_arg c_inputs n]. change (cond :: outer) with ([cond] ++ outer). rewrite filter_app_times.
    cbn [filter]. destruct (tracked cond) eqn:T.
    - rewrite (Hreg cond (or_introl eq_refl) T). lia.
    - destruct (registered cond) eqn:Rc; [rewrite (registered_tracked cond Rc) in T; discriminate|lia]. }
  destruct (acc_ok D pos L' SO HD [Owned cond] s (f :: rest)) as (st1 & E1 & V1 & L1 & S1).
  { intros c [<-|[]]. apply Hr. left; reflexivity. }
  { intros c [<-|[]] T. cbn [acc_arg] in *. destruct (Hs cond (or_introl eq_refl) T) as (r & p & E & Hp & Hle). exists r, p. rewrite Ecount. auto. }
  { eapply live_weaken; [exact Hl|]. intros x [Hx|Hx]; [left|right; exact Hx]. rewrite Ecount in Hx. exact Hx. }
  cbn [gen_accesses gen_access] in E1, S1. pose proof (forward_if s pos cond outer outs refs thn els) as Ef. fold n in Ef. rewrite Ef. clear Ef. destruct (use_arg s pos cond) as [s1 e1]. cbn [fst snd] in E1, S1. rewrite app_nil_r in E1.
  assert (Hout : forall o, In o outer -> has st1 (aname o) = true).
  { intros o Ho. destruct (Hr o (or_intror Ho)) as [(b & Hb & Eb & Tb) _]. destruct (L1 b Hb) as [P Q]. rewrite Eb, Tb in *.
    destruct (tracked o) eqn:T; [|apply P; reflexivity]. apply Q; [reflexivity|]. left. unfold L'.
    assert (0 < times (aname o) (filter registered outer))%nat; [|lia]. apply times_pos, in_map, filter_In. split; [exact Ho|]. apply Hreg; [right; exact Ho|exact T]. }
  assert (Hent : forall o, In o outer -> tracked o = true -> exists r p, sget s1 (aname o) = Some (r, p) /\ (p <= pos)%nat).
  { intros o Ho T. destruct (Hs o (or_intror Ho) T) as (r & p & E & Hp & _). destruct (proj1 S1 _ r p E) as (r' & E' & _). eauto. }
  destruct (NoDup_app_parts _ _ Hnd) as (_ & _ & Hdis).
  destruct (branch_ok refs outer thn s1 st1 pos Hlen Lt St Hout Hent) as (ft & X1 & B1).
  { intros x Hx. apply (proj2 S1), Hfr, in_or_app. left; exact Hx. }
  destruct (branch_code s1 pos outer refs thn) as [s2 e2]. cbn [fst snd] in X1, B1.
  destruct (branch_ok refs outer els s2 st1 pos Hlen Le Se Hout) as (fe & X2 & B2).
  { intros o Ho T. destruct (Hent o Ho T) as (r & p & E & Hp). destruct (proj1 B1 _ r p E) as (r' & E' & _). eauto. }
  { intros x Hx. apply (proj2 B1); [apply (proj2 S1), Hfr, in_or_app; right; exact Hx|]. intros Hx'. exact (Hdis x Hx' Hx). }
  destruct (branch_code s2 pos outer refs els) as [s3 e3]. cbn [fst snd] in X2, B2 |- *.
  destruct st1 as [|f1 rest1]; [destruct V1|].
  destruct (declared D outs (e1 ++ [If_ (e2 ++ map bare (gouts thn)) (e3 ++ map bare (gouts els))]) f rest f1 rest1 (need L SO)) as (f' & rest' & X & G & H).
  { eapply runs_app; [apply runs_of; exact E1|]. eapply runs_same; [eapply runs_if; eassumption|]. apply same_sym, same_both; apply same_refl. }
  { apply grown_evolve. exact V1. }
  { eapply live_weaken; [exact L1|]. intros x [Hx|Hx]; [left; unfold L'; lia|right; exact Hx]. }
  rewrite <- app_assoc in X. exists f', rest'. split; [exact X|]. split; [exact G|]. split; [exact H|].
  - pose proof (spent_but_trans _ _ _ _ _ _ _ (spent_but_of _ _ _ [] S1) (spent_but_trans _ _ _ _ _ _ _ B1 B2)) as Z. cbn [app] in Z.
    eapply spent_but_weaken; [exact Z|]. intros x. unfold n. rewrite takes_if. cbn [map acc_arg]. lia.
Qed.

Lemma cnode_rect_ (P : cnode -> Prop) :
  (forall ins outs acc, P (Plain ins outs acc)) ->
  (forall cond outer outs refs thn els, (forall n, In n (gnodes thn) -> P n) -> (forall n, In n (gnodes els) -> P n) -> P (IfNode cond outer outs refs thn els)) ->
  (forall count cond init outer outs refs body, (forall n, In n (gnodes body) -> P n) -> P (LoopNode count cond init outer outs refs body)) ->
  (forall init seqs outer outs refs body, (forall n, In n (gnodes body) -> P n) -> P (ScanNode init seqs outer outs refs body)) ->
  forall n, P n.
Proof.
  intros Hp Hi Hl Hs. fix IH 1. intros [ins outs acc|cond outer outs refs [gi gn go] [hi hn ho]|count cond init outer outs refs [gi gn go]|init seqs outer outs refs [gi gn go]].
  - apply Hp.
  - apply Hi; cbn [gnodes].
    + clear hn. induction gn as [|m l IHl]; [intros n []|]. intros n [<-|Hn]; [apply IH|exact (IHl n Hn)].
    + clear gn. induction hn as [|m l IHl]; [intros n []|]. intros n [<-|Hn]; [apply IH|exact (IHl n Hn)].
  - apply Hl; cbn [gnodes]. induction gn as [|m l IHl]; [intros n []|]. intros n [<-|Hn]; [apply IH|exact (IHl n Hn)].
  - apply Hs; cbn [gnodes]. induction gn as [|m l IHl]; [intros n []|]. intros n [<-|Hn]; [apply IH|exact (IHl n Hn)].
Qed.
