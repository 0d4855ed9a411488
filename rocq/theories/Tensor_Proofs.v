From Verif Require Import Tensor_Spec.
From Coq Require Import ZifyBool ZifyNat ZifyN.
From Coq Require FinFun.
Local Open Scope N_scope.

Lemma Forall2_length {A B} {R : A -> B -> Prop} {l l'} : Forall2 R l l' -> length l = length l'.
Proof. induction 1; cbn; congruence. Qed.

Lemma upto_length n : length (upto n) = N.to_nat n.
Proof. unfold upto. rewrite map_length, seq_length. reflexivity. Qed.

Lemma upto_In n i : In i (upto n) <-> i < n.
Proof.
  unfold upto. rewrite in_map_iff. split.
  - intros [k [<- H]]. apply in_seq in H. lia.
  - intros H. exists (N.to_nat i). split; [lia|]. apply in_seq. lia.
Qed.

Lemma upto_nth n k : (k < N.to_nat n)%nat -> nth_error (upto n) k = Some (N.of_nat k).
Proof.
  intros H. unfold upto. rewrite nth_error_map.
  rewrite (nth_error_nth' _ 0%nat) by (rewrite seq_length; exact H).
  rewrite seq_nth by exact H. reflexivity.
Qed.

Lemma indices_In s : forall idx, In idx (indices s) <-> valid_idx s idx.
Proof.
  unfold valid_idx. induction s as [|d r IH]; intros idx; cbn.
  - split; [intros [<-|[]]; constructor|]. intros H; inversion H. left; reflexivity.
  - rewrite in_flat_map. split.
    + intros [i [Hi H]]. apply in_map_iff in H. destruct H as [ir [<- H]].
      constructor; [apply upto_In; exact Hi|apply IH; exact H].
    + intros H. inversion H as [|i d' ir r' Hid Hr]; subst. exists i. split; [apply upto_In; exact Hid|].
      apply in_map. apply IH. exact Hr.
Qed.

Lemma flat_map_length_const {A B} (f : A -> list B) k : forall l,
  (forall x, In x l -> length (f x) = k) -> length (flat_map f l) = (length l * k)%nat.
Proof.
  induction l as [|a l IH]; intros H; cbn; [reflexivity|].
  rewrite app_length, IH by (intros; apply H; right; assumption).
  rewrite (H a (or_introl eq_refl)). reflexivity.
Qed.

Lemma indices_length s : length (indices s) = N.to_nat (prodN s).
Proof.
  induction s as [|d r IH]; cbn [indices prodN]; [reflexivity|].
  rewrite (flat_map_length_const _ (N.to_nat (prodN r))).
  - rewrite upto_length. lia.
  - intros i _. rewrite map_length. exact IH.
Qed.

Lemma offset_lt s : forall idx, valid_idx s idx -> offset s idx < prodN s.
Proof.
  unfold valid_idx. induction s as [|d r IH]; intros idx H; inversion H as [|i d' ir r' Hi Hr]; subst; cbn; [lia|].
  specialize (IH _ Hr). nia.
Qed.

Lemma nth_error_flat_map {A B} (f : A -> list B) k : forall l i j,
  (forall x, In x l -> length (f x) = k) -> (j < k)%nat ->
  nth_error (flat_map f l) (i * k + j) =
    match nth_error l i with Some x => nth_error (f x) j | None => None end.
Proof.
  induction l as [|a l IH]; intros i j H Hj; cbn.
  - destruct i; cbn; apply nth_error_None; cbn; lia.
  - destruct i as [|i]; cbn.
    + apply nth_error_app1. rewrite (H a (or_introl eq_refl)). exact Hj.
    + rewrite nth_error_app2 by (rewrite (H a (or_introl eq_refl)); lia).
      rewrite (H a (or_introl eq_refl)).
      replace (k + i * k + j - k)%nat with (i * k + j)%nat by lia.
      apply IH; [|exact Hj]. intros x Hx. apply H. right; exact Hx.
Qed.

(** The multi-index at the place given by [offset]. *)
Lemma indices_offset s : forall idx, valid_idx s idx ->
  nth_error (indices s) (N.to_nat (offset s idx)) = Some idx.
Proof.
  unfold valid_idx. induction s as [|d r IH]; intros idx H; inversion H as [|i d' ir r' Hi Hr]; subst.
  - reflexivity.
  - cbn [offset indices].
    replace (N.to_nat (i * prodN r + offset r ir))
      with (N.to_nat i * N.to_nat (prodN r) + N.to_nat (offset r ir))%nat by lia.
    rewrite nth_error_flat_map.
    + rewrite upto_nth by lia. rewrite nth_error_map, (IH _ Hr). cbn. f_equal. f_equal. lia.
    + intros x _. rewrite map_length. apply indices_length.
    + pose proof (offset_lt r ir Hr). lia.
Qed.

Lemma mapo_length {A B} (f : A -> option B) : forall l l', mapo f l = Some l' -> length l' = length l.
Proof.
  induction l as [|a l IH]; intros l' H; cbn in H; [inversion H; reflexivity|].
  destruct (f a); [|discriminate]. destruct (mapo f l); [|discriminate]. inversion H; cbn.
  f_equal. apply IH. reflexivity.
Qed.

Lemma mapo_nth {A B} (f : A -> option B) : forall l l' k x,
  mapo f l = Some l' -> nth_error l k = Some x -> nth_error l' k = f x.
Proof.
  induction l as [|a l IH]; intros l' k x H Hk; cbn in H; [destruct k; discriminate|].
  destruct (f a) eqn:Ea; [|discriminate]. destruct (mapo f l) eqn:El; [|discriminate]. inversion H; subst.
  destruct k; cbn in *; [congruence|]. eapply IH; eauto.
Qed.

Lemma mapo_Some {A B} (f : A -> option B) : forall l,
  (forall x, In x l -> exists y, f x = Some y) -> exists l', mapo f l = Some l'.
Proof.
  induction l as [|a l IH]; intros H; cbn; [eexists; reflexivity|].
  destruct (H a (or_introl eq_refl)) as [y ->].
  destruct IH as [l' ->]; [intros; apply H; right; assumption|]. eexists; reflexivity.
Qed.

Lemma mapo_ext {A B} (f g : A -> option B) l : (forall x, In x l -> f x = g x) -> mapo f l = mapo g l.
Proof.
  induction l as [|a l IH]; intros H; cbn; [reflexivity|].
  rewrite (H a (or_introl eq_refl)), IH by (intros; apply H; right; assumption). reflexivity.
Qed.

Lemma tab_ext {A} s (f g : list N -> option A) :
  (forall idx, valid_idx s idx -> f idx = g idx) -> tab s f = tab s g.
Proof.
  intros H. unfold tab. f_equal. apply mapo_ext. intros idx Hi. apply H. apply indices_In. exact Hi.
Qed.

Lemma tab_Some {A} s (f : list N -> option A) :
  (forall idx, valid_idx s idx -> exists y, f idx = Some y) -> exists t, tab s f = Some t.
Proof.
  intros H. unfold tab. destruct (mapo_Some f (indices s)) as [l' ->].
  - intros x Hx. apply H. apply indices_In. exact Hx.
  - eexists; reflexivity.
Qed.

Lemma get_tab {A} s (f : list N -> option A) t idx :
  tab s f = Some t -> valid_idx s idx -> get t idx = f idx.
Proof.
  unfold tab. destruct (mapo f (indices s)) as [l|] eqn:E; cbn; [|discriminate].
  intros H Hv. inversion H; subst. unfold get. cbn.
  eapply mapo_nth; [exact E|]. apply indices_offset. exact Hv.
Qed.

Lemma tab_wf {A} s (f : list N -> option A) t : tab s f = Some t -> twf t /\ tshape t = s.
Proof.
  unfold tab, twf. destruct (mapo f (indices s)) as [l|] eqn:E; cbn; [|discriminate].
  intros H; inversion H; subst. cbn. split; [|reflexivity].
  rewrite (mapo_length _ _ _ E). apply indices_length.
Qed.

Lemma mapo_nth_self {A} : forall (l : list A) (n : nat) (pre : list A),
  length l = n ->
  mapo (fun k => nth_error (pre ++ l) k) (seq (length pre) n) = Some l.
Proof.
  induction l as [|a l IH]; intros n pre Hn; destruct n; cbn in Hn; try discriminate; cbn; [reflexivity|].
  rewrite nth_error_app2, Nat.sub_diag by lia. cbn.
  specialize (IH n (pre ++ [a])). rewrite app_length in IH. cbn in IH.
  replace (length pre + 1)%nat with (S (length pre)) in IH by lia.
  rewrite <- app_assoc in IH. cbn in IH. rewrite IH by lia. reflexivity.
Qed.

Lemma mapo_map {A B C} (f : B -> option C) (g : A -> B) l : mapo f (map g l) = mapo (fun x => f (g x)) l.
Proof. induction l as [|a l IH]; cbn; [reflexivity|]. rewrite IH. reflexivity. Qed.

Lemma nth_error_ext {A} : forall (l l' : list A), (forall k, nth_error l k = nth_error l' k) -> l = l'.
Proof.
  induction l as [|a l IH]; intros [|b l'] H.
  - reflexivity.
  - specialize (H 0%nat). discriminate.
  - specialize (H 0%nat). discriminate.
  - pose proof (H 0%nat) as H0. cbn in H0. inversion H0; subst. f_equal.
    apply IH. intros k. exact (H (S k)).
Qed.

Lemma indices_NoDup s : NoDup (indices s).
Proof.
  induction s as [|d r IH]; cbn; [constructor; [tauto|constructor]|].
  assert (Hu : NoDup (upto d)).
  { unfold upto. apply FinFun.Injective_map_NoDup; [|apply seq_NoDup]. intros a b; lia. }
  induction (upto d) as [|i l IHl]; cbn; [constructor|].
  inversion Hu; subst.
  assert (G : forall a b : list (list N), NoDup a -> NoDup b -> (forall x, In x a -> ~ In x b) -> NoDup (a ++ b)).
  { clear. induction a as [|x a IH]; intros b Ha Hb Hd; cbn; [exact Hb|]. inversion Ha; subst.
    constructor; [|apply IH; auto; intros y Hy; apply Hd; right; exact Hy].
    rewrite in_app_iff. intros [H|H]; [contradiction|]. apply (Hd x); [left; reflexivity|exact H]. }
  apply G.
  - apply FinFun.Injective_map_NoDup; [|exact IH]. intros a b H; congruence.
  - apply IHl. assumption.
  - intros x Hx Hin. apply in_map_iff in Hx. destruct Hx as [y [<- _]].
    apply in_flat_map in Hin. destruct Hin as [j [Hj Hin]]. apply in_map_iff in Hin.
    destruct Hin as [z [Hz _]]. inversion Hz; subst. contradiction.
Qed.

Lemma tab_get {A} (t : tensor A) : twf t -> tab (tshape t) (get t) = Some t.
Proof.
  intros Hw. destruct (tab_Some (tshape t) (get t)) as [t' Ht'].
  { intros idx Hi. unfold get. pose proof (offset_lt _ _ Hi). unfold twf in Hw.
    destruct (nth_error (tdata t) (N.to_nat (offset (tshape t) idx))) eqn:E; [eexists; reflexivity|].
    apply nth_error_None in E. lia. }
  rewrite Ht'. f_equal. destruct t as [s d]. destruct t' as [s' d'].
  destruct (tab_wf _ _ _ Ht') as [Hw' Hs']. cbn in *. subst s'. f_equal.
  unfold twf in *. cbn in *.
  apply nth_error_ext. intros k.
  destruct (Nat.lt_ge_cases k (N.to_nat (prodN s))) as [Hk|Hk].
  - destruct (nth_error (indices s) k) as [idx|] eqn:E.
    + assert (Hv : valid_idx s idx) by (apply indices_In; eapply nth_error_In; exact E).
      assert (Hof : N.to_nat (offset s idx) = k).
      { pose proof (indices_offset s idx Hv) as E2.
        apply (proj1 (NoDup_nth_error (indices s)) (indices_NoDup s)).
        - rewrite indices_length. pose proof (offset_lt s idx Hv). lia.
        - congruence. }
      pose proof (get_tab _ _ _ idx Ht' Hv) as G. unfold get in G. cbn in G. rewrite Hof in G. exact G.
    + apply nth_error_None in E. rewrite indices_length in E. lia.
  - rewrite (proj2 (nth_error_None d' k)) by lia. rewrite (proj2 (nth_error_None d k)) by lia. reflexivity.
Qed.

Lemma get_valid {A} (t : tensor A) idx : twf t -> valid_idx (tshape t) idx -> exists a, get t idx = Some a /\ In a (tdata t).
Proof.
  intros Hw Hi. unfold get. pose proof (offset_lt _ _ Hi). unfold twf in Hw.
  destruct (nth_error (tdata t) (N.to_nat (offset (tshape t) idx))) eqn:E.
  - exists a. split; [reflexivity|]. eapply nth_error_In; exact E.
  - apply nth_error_None in E. lia.
Qed.

(** Two well-formed tensors with the same shape and the same elements. *)
Lemma tensor_ext {A} (t u : tensor A) : twf t -> twf u -> tshape t = tshape u ->
  (forall idx, valid_idx (tshape t) idx -> get t idx = get u idx) -> t = u.
Proof.
  intros Ht Hu Hs H. assert (E : tab (tshape t) (get t) = tab (tshape t) (get u)) by (apply tab_ext; exact H).
  rewrite (tab_get t Ht) in E. rewrite Hs, (tab_get u Hu) in E. congruence.
Qed.

(** ** Broadcasting *)
Lemma brev_length a : forall b c, brev a b = Some c -> (length c = Nat.max (length a) (length b))%nat.
Proof.
  induction a as [|x a IH]; intros [|y b] c H; cbn in H; try (inversion H; subst; cbn; lia).
  destruct (bdim x y); [|discriminate]. destruct (brev a b) eqn:E; [|discriminate].
  inversion H; subst. cbn. rewrite (IH _ _ E). lia.
Qed.

(** Right-to-left statement of "operand [a] broadcasts to [c]". *)
Inductive bto : list N -> list N -> Prop :=
| bto_nil c : bto [] c
| bto_cons x a y c : (x = y \/ x = 1) -> bto a c -> bto (x :: a) (y :: c).

Lemma bto_refl a : bto a a.
Proof. induction a; constructor; auto. Qed.

Lemma bdim_l x y d : bdim x y = Some d -> x = d \/ x = 1.
Proof. unfold bdim. destruct (N.eqb_spec x y), (N.eqb_spec x 1), (N.eqb_spec y 1); intros H; inversion H; subst; auto. Qed.
Lemma bdim_r x y d : bdim x y = Some d -> y = d \/ y = 1.
Proof. unfold bdim. destruct (N.eqb_spec x y), (N.eqb_spec x 1), (N.eqb_spec y 1); intros H; inversion H; subst; auto. Qed.

Lemma brev_bto a : forall b c, brev a b = Some c -> bto a c /\ bto b c.
Proof.
  induction a as [|x a IH]; intros [|y b] c H; cbn in H.
  - inversion H; subst. split; constructor.
  - inversion H; subst. split; [constructor|apply bto_refl].
  - inversion H; subst. split; [apply bto_refl|constructor].
  - destruct (bdim x y) as [d|] eqn:Ed; [|discriminate]. destruct (brev a b) as [r|] eqn:E; [|discriminate].
    inversion H; subst. destruct (IH _ _ E). split; constructor; auto.
    + eapply bdim_l; exact Ed.
    + eapply bdim_r; exact Ed.
Qed.

Lemma bto_length a c : bto a c -> (length a <= length c)%nat.
Proof. induction 1; cbn; lia. Qed.

Lemma Forall2_rev {A B} (R : A -> B -> Prop) l l' : Forall2 R l l' -> Forall2 R (rev l) (rev l').
Proof.
  induction 1 as [|x y l l' Hxy Hl IH]; cbn; [constructor|]. apply Forall2_app; [exact IH|].
  constructor; [exact Hxy|constructor].
Qed.

Lemma Forall2_skipn {A B} (R : A -> B -> Prop) n : forall l l', Forall2 R l l' -> Forall2 R (skipn n l) (skipn n l').
Proof.
  induction n as [|n IH]; intros l l' H; [exact H|]. destruct H; cbn; [constructor|]. apply IH; exact H0.
Qed.

Lemma bto_split a c : bto a c -> exists u v, c = u ++ v /\ Forall2 (fun x y => x = y \/ x = 1) a u.
Proof.
  induction 1 as [c|x a y c Hxy Hb IH].
  - exists [], c. split; [reflexivity|constructor].
  - destruct IH as [u [v [-> Hf]]]. exists (y :: u), v. split; [reflexivity|]. constructor; assumption.
Qed.

Lemma bproj_valid s idx s' :
  bto (rev s) (rev s') -> valid_idx s' idx -> valid_idx s (bproj s idx).
Proof.
  intros Hb Hv. apply bto_split in Hb. destruct Hb as [u [v [Hc Hf]]].
  apply (f_equal (@rev N)) in Hc. rewrite rev_involutive, rev_app_distr in Hc.
  apply Forall2_rev in Hf. rewrite rev_involutive in Hf.
  set (w := rev u) in *. set (p := rev v) in *.
  unfold valid_idx in *. subst s'.
  assert (Hl : length idx = (length p + length w)%nat).
  { apply Forall2_length in Hv. rewrite app_length in Hv. lia. }
  assert (Hlw : length s = length w) by (apply Forall2_length in Hf; exact Hf).
  assert (Hsk : Forall2 (fun i d => i < d) (skipn (length idx - length s) idx) w).
  { replace (length idx - length s)%nat with (length p) by lia.
    apply (Forall2_skipn _ (length p)) in Hv. rewrite skipn_app, skipn_all, Nat.sub_diag in Hv. exact Hv. }
  unfold bproj. revert Hsk. generalize (skipn (length idx - length s) idx). clear Hl Hlw Hv.
  intros l Hsk. revert l Hsk. induction Hf as [|x y s w Hxy Hf IH]; intros l Hsk; inversion Hsk; subst; cbn; [constructor|].
  constructor; [|apply IH; assumption].
  cbn. destruct (N.eqb_spec x 1); [subst; lia|]. destruct Hxy; [subst; assumption|contradiction].
Qed.

Lemma bproj_self s idx : valid_idx s idx -> bproj s idx = idx.
Proof.
  intros Hv. unfold bproj. pose proof (Forall2_length Hv) as Hl. rewrite Hl, Nat.sub_diag. cbn [skipn].
  unfold valid_idx in Hv. clear Hl. induction Hv as [|i d idx s Hid Hv IH]; cbn; [reflexivity|].
  rewrite IH. f_equal. destruct (N.eqb_spec d 1); [subst; lia|reflexivity].
Qed.

Lemma bshape_bto a b c : bshape a b = Some c -> bto (rev a) (rev c) /\ bto (rev b) (rev c).
Proof.
  unfold bshape. destruct (brev (rev a) (rev b)) as [r|] eqn:E; cbn; [|discriminate].
  intros H; inversion H; subst. rewrite rev_involutive. apply brev_bto. exact E.
Qed.

(** An operand whose elements are all neutral on the right changes nothing,
    provided the result has the shape of the other operand. *)
Lemma elementwise_neutral_r {A} (op : A -> A -> A) (x c r : tensor A) :
  twf x -> twf c -> elementwise op x c = Some r -> tshape r = tshape x ->
  (forall a v, In a (tdata c) -> op v a = v) -> r = x.
Proof.
  intros Hx Hc H Hs Hn. unfold elementwise in H.
  destruct (bshape (tshape x) (tshape c)) as [s|] eqn:E; [|discriminate].
  destruct (tab_wf _ _ _ H) as [Hwr Hsr]. destruct (bshape_bto _ _ _ E) as [B1 B2].
  apply tensor_ext; [exact Hwr|exact Hx|exact Hs|].
  intros idx Hv. rewrite Hsr in Hv. rewrite (get_tab _ _ _ _ H Hv).
  rewrite Hsr in Hs. subst s.
  rewrite bproj_self by exact Hv.
  destruct (get_valid x idx Hx Hv) as [v [-> _]].
  destruct (get_valid c (bproj (tshape c) idx) Hc (bproj_valid _ _ _ B2 Hv)) as [a [-> Ha]].
  cbn. rewrite Hn by exact Ha. reflexivity.
Qed.

Lemma elementwise_neutral_l {A} (op : A -> A -> A) (c x r : tensor A) :
  twf x -> twf c -> elementwise op c x = Some r -> tshape r = tshape x ->
  (forall a v, In a (tdata c) -> op a v = v) -> r = x.
Proof.
  intros Hx Hc H Hs Hn. unfold elementwise in H.
  destruct (bshape (tshape c) (tshape x)) as [s|] eqn:E; [|discriminate].
  destruct (tab_wf _ _ _ H) as [Hwr Hsr]. destruct (bshape_bto _ _ _ E) as [B1 B2].
  apply tensor_ext; [exact Hwr|exact Hx|exact Hs|].
  intros idx Hv. rewrite Hsr in Hv. rewrite (get_tab _ _ _ _ H Hv).
  rewrite Hsr in Hs. subst s.
  rewrite (bproj_self (tshape x)) by exact Hv.
  destruct (get_valid x idx Hx Hv) as [v [-> _]].
  destruct (get_valid c (bproj (tshape c) idx) Hc (bproj_valid _ _ _ B1 Hv)) as [a [-> Ha]].
  cbn. rewrite Hn by exact Ha. reflexivity.
Qed.

Lemma elementwise_wf {A} (op : A -> A -> A) x y (r : tensor A) :
  elementwise op x y = Some r -> twf r /\ bshape (tshape x) (tshape y) = Some (tshape r).
Proof.
  unfold elementwise. destruct (bshape _ _) as [s|]; [|discriminate].
  intros H. destruct (tab_wf _ _ _ H) as [H1 H2]. split; [exact H1|congruence].
Qed.
