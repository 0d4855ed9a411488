(** Proofs about the generated code of graphs without control flow. *)
From Verif Require Import IR_Model Scope_Spec Scope_Model Scope_Cond.
From Coq Require Import Lia ZifyBool ZifyNat.

(** * Registration *)
Lemma times_cons x a l : times x (a :: l) = ((if string_dec (aname a) x then 1 else 0) + times x l)%nat.
Proof. unfold times. cbn. destruct (string_dec (aname a) x); reflexivity. Qed.
Lemma times_0 x l : ~ In x (map aname l) -> times x l = 0%nat.
Proof. intros H. apply count_occ_not_In. exact H. Qed.
Lemma times_pos x l : In x (map aname l) -> (0 < times x l)%nat.
Proof. intros H. apply (count_occ_In string_dec) in H. unfold times. lia. Qed.

Lemma sget_sput {A} (m : smap A) k v k' : sget (sput m k v) k' = if String.eqb k k' then Some v else sget m k'.
Proof. reflexivity. Qed.

Lemma reg_uses_known l pos : forall s x r p, sget s x = Some (r, p) -> (p <= pos)%nat ->
  sget (reg_uses l pos s) x = Some ((r + times x (filter registered l))%nat, p).
Proof.
  unfold reg_uses. induction l as [|a l IH]; intros s x r p H Hp; cbn [fold_left filter].
  - unfold times. cbn. rewrite Nat.add_0_r. exact H.
  - destruct (registered a) eqn:Ra; [|apply IH; assumption].
    rewrite times_cons. unfold register_future_use. destruct (string_dec (aname a) x) as [->|Hne].
    + rewrite H. destruct (Nat.leb_spec p pos); [|lia]. erewrite IH.
      2:{ rewrite sget_sput, String.eqb_refl. reflexivity. } 2: assumption.
      f_equal. f_equal. lia.
    + rewrite (IH _ x r p); [f_equal; f_equal; lia| |exact Hp].
      apply String.eqb_neq in Hne.
      destruct (sget s (aname a)) as [[r' p']|]; [destruct (Nat.leb p' pos)|]; rewrite ?sget_sput, ?Hne; exact H.
Qed.
Lemma reg_uses_other l pos : forall s x, ~ In x (map aname (filter registered l)) -> sget (reg_uses l pos s) x = sget s x.
Proof.
  unfold reg_uses. induction l as [|a l IH]; intros s x H; cbn [fold_left filter] in *; [reflexivity|].
  destruct (registered a) eqn:Ra; [|apply IH; assumption]. cbn in H.
  rewrite IH by tauto. unfold register_future_use. assert (Hne : String.eqb (aname a) x = false) by (apply String.eqb_neq; tauto).
  destruct (sget s (aname a)) as [[r' p']|]; [destruct (Nat.leb p' pos)|]; rewrite ?sget_sput, ?Hne; reflexivity.
Qed.
Lemma reg_vars_other l pos : forall s x, ~ In x (map aname l) -> sget (reg_vars l pos s) x = sget s x.
Proof.
  unfold reg_vars. induction l as [|a l IH]; intros s x H; cbn [fold_left] in *; [reflexivity|]. cbn in H.
  rewrite IH by tauto. destruct (tracked a); [|reflexivity]. unfold register_variable.
  assert (Hne : String.eqb (aname a) x = false) by (apply String.eqb_neq; tauto).
  destruct (sget s (aname a)) as [[r' p']|]; [destruct (Nat.eqb p' pos)|]; rewrite ?sget_sput, ?Hne; reflexivity.
Qed.
Lemma reg_vars_new l pos : forall s a, NoDup (map aname l) -> In a l -> tracked a = true -> sget s (aname a) = None ->
  sget (reg_vars l pos s) (aname a) = Some (0%nat, pos).
Proof.
  unfold reg_vars. induction l as [|b l IH]; intros s a Hn Ha Ht Hs; [destruct Ha|]. cbn [fold_left].
  inversion Hn as [|? ? Hb Hl]; subst. destruct Ha as [->|Ha].
  - rewrite Ht. pose proof (reg_vars_other l pos (register_variable s a pos) (aname a) Hb) as E. unfold reg_vars in E. rewrite E.
    unfold register_variable. rewrite Hs, sget_sput, String.eqb_refl. reflexivity.
  - apply IH; auto. destruct (tracked b); [|exact Hs]. unfold register_variable.
    assert (Hne : String.eqb (aname b) (aname a) = false).
    { apply String.eqb_neq. intros E. apply Hb. rewrite E. apply in_map. exact Ha. }
    destruct (sget s (aname b)) as [[r' p']|]; [destruct (Nat.eqb p' pos)|]; rewrite ?sget_sput, ?Hne; exact Hs.
Qed.

Definition nreg (n : cnode) (x : string) : nat := times x (filter registered (c_inputs n)).
Fixpoint sreg (l : list cnode) (x : string) : nat := match l with [] => 0 | n :: r => nreg n x + sreg r x end.
Definition is_tensor (a : arg) : bool := match aty a with TensorT _ => true | _ => false end.

Lemma reg_nodes_known l : forall pos s x r p, sget s x = Some (r, p) -> (p <= pos)%nat -> ~ In x (flat_map out_of l) ->
  sget (reg_nodes l pos s) x = Some ((r + sreg l x)%nat, p).
Proof.
  induction l as [|n l IH]; intros pos s x r p H Hp Hx; cbn in *; [rewrite Nat.add_0_r; exact H|].
  rewrite in_app_iff in Hx.
  rewrite (IH (S pos) _ x (r + nreg n x)%nat p); [f_equal; f_equal; lia| |lia|tauto].
  unfold nreg. apply reg_uses_known; [|exact Hp]. rewrite reg_vars_other; [exact H|]. unfold out_of in Hx. tauto.
Qed.

Lemma reg_nodes_new l : forall pos s k n a, nth_error l k = Some n -> In a (c_outputs n) -> tracked a = true ->
  NoDup (flat_map out_of l) -> sget s (aname a) = None ->
  (forall m, In m (firstn (S k) l) -> ~ In (aname a) (map aname (filter registered (c_inputs m)))) ->
  sget (reg_nodes l pos s) (aname a) = Some (sreg (skipn (S k) l) (aname a), S (pos + k)).
Proof.
  induction l as [|m l IH]; intros pos s k n a Hk Ha Ht Hn Hs Hu; [destruct k; discriminate|].
  cbn in Hn. assert (Hm : NoDup (out_of m)) by (clear -Hn; induction (out_of m); [constructor|inversion Hn; subst; constructor; [rewrite in_app_iff in *; tauto|auto]]).
  assert (Hl : NoDup (flat_map out_of l)) by (clear -Hn; induction (out_of m); [exact Hn|inversion Hn; subst; auto]).
  assert (Hd : forall x, In x (out_of m) -> ~ In x (flat_map out_of l)).
  { clear -Hn. intros x Hx Hy. induction (out_of m) as [|y r IH]; [destruct Hx|]. inversion Hn as [|? ? H1 H2]; subst.
    destruct Hx as [->|Hx]; [apply H1, in_or_app; right; exact Hy|exact (IH H2 Hx)]. }
  assert (Hum : ~ In (aname a) (map aname (filter registered (c_inputs m)))) by (apply Hu; left; reflexivity).
  cbn [reg_nodes]. destruct k as [|k].
  - injection Hk as ->. cbn [skipn]. rewrite Nat.add_0_r.
    rewrite (reg_nodes_known l (S pos) _ (aname a) 0%nat (S pos)); [reflexivity| |lia|].
    + rewrite reg_uses_other by exact Hum. apply reg_vars_new; auto.
    + apply Hd. apply in_map. exact Ha.
  - cbn in Hk. change (skipn (S (S k)) (m :: l)) with (skipn (S k) l).
    replace (S (pos + S k))%nat with (S (S pos + k))%nat by lia.
    apply (IH (S pos) _ k n a); auto.
    + rewrite reg_uses_other by exact Hum. rewrite reg_vars_other; [exact Hs|].
      intros Hc. apply (Hd (aname a) Hc). apply in_flat_map. exists n. split; [eapply nth_error_In; exact Hk|apply in_map; exact Ha].
    + intros m' Hm'. apply Hu. right. exact Hm'.
Qed.

Lemma reg_outs_known l pos : forall s x r p, sget s x = Some (r, p) -> (p <= pos)%nat ->
  sget (fold_left (fun s a => match aty a with TensorT _ => register_future_use s a pos | _ => s end) l s) x =
  Some ((r + times x (filter is_tensor l))%nat, p).
Proof.
  induction l as [|a l IH]; intros s x r p H Hp; cbn [fold_left filter]; [unfold times; cbn; rewrite Nat.add_0_r; exact H|].
  unfold is_tensor at 1. destruct (aty a) eqn:Ea; try (apply IH; assumption).
  rewrite times_cons. unfold register_future_use. destruct (string_dec (aname a) x) as [->|Hne].
  + rewrite H. destruct (Nat.leb_spec p pos); [|lia]. erewrite IH.
    2:{ rewrite sget_sput, String.eqb_refl. reflexivity. } 2: assumption.
    f_equal. f_equal. lia.
  + rewrite (IH _ x r p); [f_equal; f_equal; lia| |exact Hp].
    apply String.eqb_neq in Hne.
    destruct (sget s (aname a)) as [[r' p']|]; [destruct (Nat.leb p' pos)|]; rewrite ?sget_sput, ?Hne; exact H.
Qed.

(** * What is defined where *)
Definition defined (g : cgraph) (b : arg) (d : nat) : Prop :=
  (d = 0%nat /\ In b (gins g)) \/ exists k n, d = S k /\ nth_error (gnodes g) k = Some n /\ In b (c_outputs n).

Definition treg (g : cgraph) (l : list cnode) (x : string) : nat := (sreg l x + times x (filter is_tensor (gouts g)))%nat.

Lemma NoDup_app_parts {A} (a b : list A) : NoDup (a ++ b) -> NoDup a /\ NoDup b /\ forall x, In x a -> ~ In x b.
Proof.
  induction a as [|y a IH]; intros H; [repeat split; [constructor|exact H|intros x []]|].
  inversion H as [|? ? H1 H2]; subst. destruct (IH H2) as (I1 & I2 & I3). rewrite in_app_iff in H1. repeat split.
  - constructor; tauto.
  - exact I2.
  - intros x [->|Hx]; [tauto|auto].
Qed.

Lemma build_ok g : legal_flat g -> forall b d, defined g b d -> tracked b = true ->
  exists r, sget (build_scope g) (aname b) = Some (r, d) /\ treg g (gnodes g) (aname b) = r.
Proof.
  intros L b d Hd Ht. destruct (NoDup_app_parts _ _ (lf_ssa g L)) as (N1 & N2 & N3).
  unfold build_scope.
  assert (Hlt : (d <= length (gnodes g))%nat).
  { destruct Hd as [[-> _]|(k & n & -> & Hk & _)]; [lia|]. apply nth_error_Some. congruence. }
  assert (K : sget (reg_nodes (gnodes g) 0 (reg_vars (gins g) 0 [])) (aname b) = Some (sreg (gnodes g) (aname b), d)).
  { destruct Hd as [[-> Hb]|(k & n & -> & Hk & Hb)].
    - rewrite (reg_nodes_known (gnodes g) 0 _ (aname b) 0%nat 0%nat); [reflexivity| |lia|].
      + apply reg_vars_new; auto.
      + apply N3, in_map. exact Hb.
    - assert (Hout : In (aname b) (flat_map out_of (gnodes g))).
      { apply in_flat_map. exists n. split; [eapply nth_error_In; exact Hk|apply in_map; exact Hb]. }
      assert (Hsplit : gnodes g = firstn k (gnodes g) ++ n :: skipn (S k) (gnodes g)).
      { clear -Hk. revert k Hk. induction (gnodes g) as [|m l IH]; intros k Hk; [destruct k; discriminate|].
        destruct k; cbn in Hk; [injection Hk as ->; reflexivity|]. cbn. f_equal. apply IH. exact Hk. }
      assert (Hearly : forall m, In m (firstn (S k) (gnodes g)) -> ~ In (aname b) (map aname (filter registered (c_inputs m)))).
      { intros m Hm Hc. apply in_map_iff in Hc. destruct Hc as (a & Ea & Ha). apply filter_In in Ha.
        apply in_split in Hm. destruct Hm as (p1 & p2 & Em).
        assert (Hg : gnodes g = p1 ++ m :: (p2 ++ skipn (S k) (gnodes g))).
        { rewrite <- (firstn_skipn (S k) (gnodes g)) at 1. rewrite Em, <- app_assoc. reflexivity. }
        pose proof (lf_order g L p1 m _ a Hg (or_intror Ha)) as Ho. rewrite Ea in Ho. rewrite in_app_iff in Ho.
        destruct Ho as [Ho|Ho]; [exact (N3 _ Ho Hout)|].
        (* [p1] is a strict prefix of the first k+1 nodes *)
        assert (Hp1 : p1 = firstn (length p1) (firstn k (gnodes g))).
        { assert (Hle : (length p1 <= k)%nat).
          { assert (length (firstn (S k) (gnodes g)) <= S k)%nat by apply firstn_le_length. rewrite Em, app_length in H. cbn in H. lia. }
          rewrite firstn_firstn, Nat.min_l by exact Hle.
          assert (E : firstn (length p1) (firstn (S k) (gnodes g)) = p1).
          { rewrite Em, firstn_app, Nat.sub_diag, firstn_all. cbn. apply app_nil_r. }
          rewrite firstn_firstn, Nat.min_l in E by lia. symmetry. exact E. }
        assert (Hin : In (aname b) (flat_map out_of (firstn k (gnodes g)))).
        { apply in_flat_map in Ho. destruct Ho as (q & Hq & Hqx). apply in_flat_map. exists q. split; [|exact Hqx].
          rewrite Hp1 in Hq. rewrite <- (firstn_skipn (length p1) (firstn k (gnodes g))). apply in_or_app. left; exact Hq. }
        rewrite Hsplit, flat_map_app in N2. cbn in N2.
        destruct (NoDup_app_parts _ _ N2) as (_ & _ & Hdis). apply (Hdis _ Hin), in_or_app. left. apply in_map. exact Hb. }
      rewrite (reg_nodes_new (gnodes g) 0 _ k n b Hk Hb Ht N2); [| |exact Hearly].
      + f_equal. f_equal. rewrite Hsplit at 2. clear -Hearly Hk Hsplit.
        assert (E : forall l1 l2 x, sreg (l1 ++ l2) x = (sreg l1 x + sreg l2 x)%nat) by (induction l1; intros; cbn; [reflexivity|rewrite IHl1; lia]).
        rewrite E. cbn [sreg].
        assert (Z : forall m, In m (firstn (S k) (gnodes g)) -> nreg m (aname b) = 0%nat).
        { intros m Hm. unfold nreg. apply times_0. apply Hearly. exact Hm. }
        assert (Z1 : sreg (firstn k (gnodes g)) (aname b) = 0%nat).
        { assert (Z' : forall m, In m (firstn k (gnodes g)) -> nreg m (aname b) = 0%nat).
          { intros m Hm. apply Z. replace (firstn k (gnodes g)) with (firstn k (firstn (S k) (gnodes g))) in Hm by (rewrite firstn_firstn, Nat.min_l by lia; reflexivity).
            rewrite <- (firstn_skipn k (firstn (S k) (gnodes g))). apply in_or_app. left; exact Hm. }
          clear -Z'. induction (firstn k (gnodes g)) as [|m l IH]; [reflexivity|]. cbn. rewrite (Z' m) by (left; reflexivity).
          apply IH. intros; apply Z'; right; assumption. }
        rewrite Z1. rewrite (Z n); [lia|]. rewrite Hsplit. rewrite firstn_app.
        assert (length (firstn k (gnodes g)) = k).
        { rewrite firstn_length. assert (k < length (gnodes g))%nat by (apply nth_error_Some; congruence). lia. }
        apply in_or_app. right. rewrite H. replace (S k - k)%nat with 1%nat by lia. left; reflexivity.
      + rewrite reg_vars_other; [reflexivity|]. intros Hc. exact (N3 _ Hc Hout). }
  exists (treg g (gnodes g) (aname b)). split; [|reflexivity]. unfold treg. apply reg_outs_known; [exact K|exact Hlt].
Qed.

Lemma NoDup_map_inj {A B} (f : A -> B) l a b : NoDup (map f l) -> In a l -> In b l -> f a = f b -> a = b.
Proof.
  induction l as [|x l IH]; intros Hn Ha Hb E; [destruct Ha|]. cbn in Hn. inversion Hn as [|? ? H1 H2]; subst.
  destruct Ha as [->|Ha], Hb as [->|Hb]; auto.
  - exfalso. apply H1. rewrite E. apply in_map. exact Hb.
  - exfalso. apply H1. rewrite <- E. apply in_map. exact Ha.
Qed.

Lemma defined_unique g b b' d d' : legal_flat g -> defined g b d -> defined g b' d' -> aname b = aname b' -> b = b'.
Proof.
  intros L H H' E. pose proof (lf_ssa g L) as N.
  assert (Eall : map aname (gins g) ++ flat_map out_of (gnodes g) = map aname (gins g ++ flat_map c_outputs (gnodes g))).
  { rewrite map_app. f_equal. clear. induction (gnodes g) as [|n l IH]; cbn; [reflexivity|]. rewrite map_app, IH. reflexivity. }
  rewrite Eall in N. apply (NoDup_map_inj aname (gins g ++ flat_map c_outputs (gnodes g))); auto; apply in_or_app.
  - destruct H as [[_ H]|(k & n & _ & Hk & H)]; [left; exact H|right]. apply in_flat_map. exists n. split; [eapply nth_error_In; exact Hk|exact H].
  - destruct H' as [[_ H']|(k & n & _ & Hk & H')]; [left; exact H'|right]. apply in_flat_map. exists n. split; [eapply nth_error_In; exact Hk|exact H'].
Qed.

Section Gen.
  Variable g : cgraph.
  Hypothesis L : legal_flat g.
  Hypothesis unread : scalar_outputs_unread g.
  Variable ex : bool.
  Definition cmp (m r : nat) : Prop := if ex then m = r else (m <= r)%nat.
  Lemma cmp_S m r : cmp (S m) (S r) -> cmp m r.
  Proof. unfold cmp. destruct ex; lia. Qed.
  Lemma cmp_le m r : cmp m r -> (m <= r)%nat.
  Proof. unfold cmp. destruct ex; lia. Qed.

  Definition scalar_out (x : string) : Prop := exists a, In a (gouts g) /\ is_scalar_tensor a = true /\ aname a = x.
  Definition left_ (acc : list access) (R : string -> nat) (x : string) : nat :=
    (times x (filter tracked (map acc_arg acc)) + R x)%nat.
  Definition J (pos : nat) (s : scope) (f : frame) (acc : list access) (R : string -> nat) : Prop :=
    (forall b d, defined g b d -> tracked b = true -> exists r, sget s (aname b) = Some (r, d) /\ cmp (left_ acc R (aname b)) r) /\
    (forall b d, defined g b d -> (d <= pos)%nat ->
       tracked b = false \/ (0 < left_ acc R (aname b))%nat \/ scalar_out (aname b) -> f (aname b) = Some true).
  Definition readable (pos : nat) (c : access) : Prop :=
    (exists b d, defined g b d /\ (d <= pos)%nat /\ aname b = aname (acc_arg c) /\ tracked b = tracked (acc_arg c)) /\
    ~ scalar_out (aname (acc_arg c)).

  Lemma exec_use f x h rest : f x = Some true ->
    exec (Use x h :: rest) [f] = exec rest [match h with Moved => set f x false | _ => f end].
  Proof. intros H. cbn. rewrite H. destruct h; cbn; rewrite ?H; reflexivity. Qed.

  Lemma gen_used pos acc : forall s c, In c acc -> used (aname (acc_arg c)) (snd (gen_accesses s pos acc)).
  Proof.
    induction acc as [|c0 acc IH]; intros s c Hc; [destruct Hc|]. cbn [gen_accesses].
    destruct (gen_access s pos c0) as [s1 e1] eqn:E1. destruct (gen_accesses s1 pos acc) as [s2 e2] eqn:E2. cbn [snd].
    destruct Hc as [->|Hc].
    - assert (U : used (aname (acc_arg c)) e1).
      { destruct c as [a|a]; cbn in E1.
        - unfold use_arg in E1. destruct (tracked a); [destruct (use_owned s a pos)|]; injection E1 as <- <-; eexists; left; reflexivity.
        - injection E1 as <- <-. eexists; left; reflexivity. }
      destruct U as [h Hh]. exists h. apply in_or_app. left; exact Hh.
    - specialize (IH s1 c Hc). rewrite E2 in IH. destruct IH as [h Hh]. exists h. apply in_or_app. right; exact Hh.
  Qed.

  Definition bound_only (acc : list access) : Prop := ex = true -> forall a, In (Ident a) acc -> tracked a = false.

  Lemma gen_step pos R c acc s f : J pos s f (c :: acc) R -> readable pos c -> bound_only (c :: acc) ->
    f (aname (acc_arg c)) = Some true /\
    exists h s1, gen_access s pos c = (s1, [Use (aname (acc_arg c)) h]) /\
      J pos s1 (match h with Moved => set f (aname (acc_arg c)) false | _ => f end) acc R /\
      (h = Cloned -> ex = true -> (0 < left_ acc R (aname (acc_arg c)))%nat) /\
      (h = Moved -> left_ acc R (aname (acc_arg c)) = 0%nat).
  Proof.
    intros [J1 J2] [(b & d & Hd & Hdp & Ename & Etr) Hns] Hb.
    assert (Hle : forall x, (left_ acc R x <= left_ (c :: acc) R x)%nat).
    { intros x. unfold left_. cbn [map filter]. destruct (tracked (acc_arg c)); [rewrite times_cons|]; lia. }
    assert (Hother : forall x, x <> aname (acc_arg c) -> left_ (c :: acc) R x = left_ acc R x).
    { intros x Hx. unfold left_. cbn [map filter]. destruct (tracked (acc_arg c)); [rewrite times_cons|reflexivity].
      destruct (string_dec (aname (acc_arg c)) x); [congruence|reflexivity]. }
    assert (Hself : tracked (acc_arg c) = true -> left_ (c :: acc) R (aname (acc_arg c)) = S (left_ acc R (aname (acc_arg c)))).
    { intros Ht. unfold left_. cbn [map filter]. rewrite Ht, times_cons. destruct (string_dec _ _); [reflexivity|congruence]. }
    assert (Hsame : tracked (acc_arg c) = false -> forall x, left_ (c :: acc) R x = left_ acc R x).
    { intros Ht x. unfold left_. cbn [map filter]. rewrite Ht. reflexivity. }
    split.
    { rewrite <- Ename. apply (J2 b d Hd Hdp). rewrite Ename, Etr.
      destruct (tracked (acc_arg c)) eqn:Ht; [right; left|left; reflexivity]. rewrite Hself by reflexivity. lia. }
    assert (J2' : forall b d, defined g b d -> (d <= pos)%nat ->
       tracked b = false \/ (0 < left_ acc R (aname b))%nat \/ scalar_out (aname b) -> f (aname b) = Some true).
    { intros b' d' Hb' Hd' Hc. apply (J2 b' d' Hb' Hd').
      destruct Hc as [Hc|[Hc|Hc]]; [left; exact Hc|right; left|right; right; exact Hc].
      specialize (Hle (aname b')). lia. }
    destruct c as [a|a]; cbn [acc_arg] in *; cbn [gen_access].
    - unfold use_arg. destruct (tracked a) eqn:Ht.
      + destruct (J1 b d Hd) as (r & Er & Cr); [rewrite Etr; reflexivity|]. rewrite Ename in Er, Cr.
        rewrite Hself in Cr by reflexivity.
        unfold use_owned. rewrite Er. destruct (Nat.leb_spec d pos); [|lia].
        destruct r as [|r']; [apply cmp_le in Cr; lia|]. apply cmp_S in Cr.
        assert (J1' : forall b d0, defined g b d0 -> tracked b = true ->
                  exists r, sget (sput s (aname a) (r', d)) (aname b) = Some (r, d0) /\ cmp (left_ acc R (aname b)) r).
        { intros b' d' Hb' Ht'. rewrite sget_sput. destruct (String.eqb_spec (aname a) (aname b')) as [E|E].
          - destruct (J1 b' d' Hb' Ht') as (r2 & Er2 & _). rewrite <- E, Er in Er2. injection Er2 as _ <-.
            exists r'. split; [reflexivity|]. rewrite <- E. exact Cr.
          - destruct (J1 b' d' Hb' Ht') as (r2 & Er2 & C2). exists r2. split; [exact Er2|]. rewrite Hother in C2 by congruence. exact C2. }
        destruct (Nat.ltb_spec 0 r') as [Hpos|Hzero].
        * exists Cloned, (sput s (aname a) (r', d)). split; [reflexivity|].
          split; [split; [exact J1'|exact J2']|]. split; [|discriminate].
          intros _ E. unfold cmp in Cr. rewrite E in Cr. lia.
        * exists Moved, (sput s (aname a) (r', d)). split; [reflexivity|].
          assert (r' = 0%nat) by lia. subst r'. apply cmp_le in Cr as Cr'.
          split; [|split; [discriminate|lia]].
          split; [exact J1'|]. intros b' d' Hb' Hd' Hc. unfold set.
          destruct (String.eqb_spec (aname a) (aname b')) as [E|E].
          -- exfalso. assert (b' = b) by (apply (defined_unique g b' b d' d L Hb' Hd); congruence). subst b'.
             destruct Hc as [Hc|[Hc|Hc]]; [congruence|rewrite <- E in Hc; lia|apply Hns; rewrite E; exact Hc].
          -- apply (J2' b' d' Hb' Hd'). exact Hc.
      + exists Copied, s. split; [reflexivity|]. split; [|split; discriminate].
        split; [|exact J2']. intros b' d' Hb' Ht'. destruct (J1 b' d' Hb' Ht') as (r2 & E2 & C2). exists r2. rewrite (Hsame eq_refl) in C2. auto.
    - exists Copied, s. split; [reflexivity|]. split; [|split; discriminate].
      split; [|exact J2']. intros b' d' Hb' Ht'. destruct (J1 b' d' Hb' Ht') as (r2 & E2 & C2). exists r2.
      split; [exact E2|]. unfold cmp, bound_only in *. specialize (Hle (aname b')). destruct ex; [|lia].
      rewrite Hsame in C2 by (apply Hb; [reflexivity|left; reflexivity]). exact C2.
  Qed.

  (** The later uses are all in [post] or after. *)
  Definition clones_ok (R : string -> nat) (l : list stmt) : Prop :=
    forall pre x post, l = pre ++ Use x Cloned :: post -> used x post \/ (0 < R x)%nat.
  Definition moves_ok (R : string -> nat) (l : list stmt) : Prop :=
    forall pre x post, l = pre ++ Use x Moved :: post -> ~ used x post /\ R x = 0%nat.

  Lemma gen_names pos acc : forall s x h, In (Use x h) (snd (gen_accesses s pos acc)) ->
    exists c, In c acc /\ aname (acc_arg c) = x /\ (h <> Copied -> tracked (acc_arg c) = true).
  Proof.
    induction acc as [|c0 acc IH]; intros s x h H; [destruct H|]. cbn [gen_accesses] in H.
    destruct (gen_access s pos c0) as [s1 e1] eqn:E1. destruct (gen_accesses s1 pos acc) as [s2 e2] eqn:E2. cbn [snd] in H.
    apply in_app_or in H. destruct H as [H|H].
    - exists c0. split; [left; reflexivity|]. destruct c0 as [a|a]; cbn in E1 |- *.
      + unfold use_arg in E1. destruct (tracked a) eqn:Ht; [destruct (use_owned s a pos)|]; injection E1 as <- <-;
          destruct H as [H|[]]; injection H as <- <-; split; congruence.
      + injection E1 as <- <-. destruct H as [H|[]]; injection H as <- <-. split; congruence.
    - specialize (IH s1 x h). rewrite E2 in IH. destruct (IH H) as (c & Hc & P). exists c. split; [right; exact Hc|exact P].
  Qed.

  Lemma gen_ok pos R acc : forall s f, J pos s f acc R -> (forall c, In c acc -> readable pos c) -> bound_only acc ->
    (exists f', (forall rest, exec (snd (gen_accesses s pos acc) ++ rest) [f] = exec rest [f']) /\
      J pos (fst (gen_accesses s pos acc)) f' [] R) /\
    (ex = true -> clones_ok R (snd (gen_accesses s pos acc))) /\ moves_ok R (snd (gen_accesses s pos acc)).
  Proof.
    induction acc as [|c acc IH]; intros s f HJ Hr Hb.
    - cbn. split; [exists f; split; [reflexivity|exact HJ]|]. split; [intros _|]; intros pre x post E; destruct pre; discriminate.
    - destruct (gen_step pos R c acc s f HJ (Hr c (or_introl eq_refl)) Hb) as (Hlive & h & s1 & Eg & HJ1 & Hc & Hm).
      cbn [gen_accesses]. rewrite Eg.
      destruct (IH s1 _ HJ1 (fun c H => Hr c (or_intror H)) (fun e a H => Hb e a (or_intror H))) as ((f' & Ex & HJ') & Cl & Mv).
      destruct (gen_accesses s1 pos acc) as [s2 e2] eqn:E2. cbn [fst snd] in *. split; [|split].
      + exists f'. split; [|exact HJ']. intros rest. cbn [app]. rewrite exec_use by exact Hlive. apply Ex.
      + intros Eex pre x post E. destruct pre as [|p0 pre]; cbn in E.
        * injection E as <- -> <-. specialize (Hc eq_refl Eex). unfold left_ in Hc.
          destruct (times (aname (acc_arg c)) (filter tracked (map acc_arg acc))) as [|t] eqn:Et; [right; lia|left].
          assert (Hin : In (aname (acc_arg c)) (map aname (filter tracked (map acc_arg acc)))).
          { apply (count_occ_In string_dec). unfold times in Et. rewrite Et. lia. }
          apply in_map_iff in Hin. destruct Hin as (a & Ea & Ha). apply filter_In in Ha. destruct Ha as [Ha _].
          apply in_map_iff in Ha. destruct Ha as (c' & <- & Hc'). pose proof (gen_used pos acc s1 c' Hc') as U.
          rewrite E2, Ea in U. exact U.
        * injection E as _ ->. apply (Cl Eex _ _ _ eq_refl).
      + intros pre x post E. destruct pre as [|p0 pre]; cbn in E.
        * injection E as <- -> <-. specialize (Hm eq_refl). unfold left_ in Hm. split; [|lia].
          intros [h' U]. pose proof (gen_names pos acc s1 (aname (acc_arg c)) h') as G. rewrite E2 in G. destruct (G U) as (c' & Hc' & En & _).
          assert (Htr : tracked (acc_arg c) = true).
          { destruct c as [a|a]; cbn in Eg |- *; [|discriminate]. unfold use_arg in Eg. destruct (tracked a); [reflexivity|discriminate]. }
          assert (Htr' : tracked (acc_arg c') = true).
          { destruct (Hr c (or_introl eq_refl)) as [(b & d & Hd & _ & Eb & Tb) _]. destruct (Hr c' (or_intror Hc')) as [(b' & d' & Hd' & _ & Eb' & Tb') _].
            assert (b = b') by (apply (defined_unique g b b' d d' L Hd Hd'); congruence). congruence. }
          assert (0 < times (aname (acc_arg c)) (filter tracked (map acc_arg acc)))%nat; [|lia].
          apply times_pos. rewrite <- En. apply in_map, filter_In. split; [apply in_map; exact Hc'|exact Htr'].
        * injection E as _ ->. apply (Mv _ _ _ eq_refl).
  Qed.

  Lemma declare_live xs f x : f x = Some true \/ In x xs -> fold_left (fun f x => set f x true) xs f x = Some true.
  Proof.
    revert f. induction xs as [|y xs IH]; intros f H; cbn; [destruct H as [H|[]]; exact H|]. apply IH. unfold set.
    destruct (String.eqb_spec y x) as [E|E]; [left; reflexivity|]. destruct H as [H|[H|H]]; [left; exact H|contradiction|right; exact H].
  Qed.

  Lemma sreg_app l1 l2 x : sreg (l1 ++ l2) x = (sreg l1 x + sreg l2 x)%nat.
  Proof. induction l1; cbn; [reflexivity|rewrite IHl1; lia]. Qed.

  Lemma forward_used l : (forall n, In n l -> exists i o a, n = Plain i o a) -> forall s pos n c, In n l -> In c (accesses n) ->
    used (aname (acc_arg c)) (snd (forward_nodes s pos l)).
  Proof.
    induction l as [|n0 l IH]; intros Hp s pos n c Hn Hc; [destruct Hn|]. cbn [forward_nodes].
    destruct (Hp n0 (or_introl eq_refl)) as (i & o & a & ->). cbn [forward].
    destruct (gen_accesses s pos a) as [s1 e1] eqn:E1. destruct (forward_nodes s1 (S pos) l) as [s2 e2] eqn:E2. cbn [snd].
    destruct Hn as [<-|Hn].
    - cbn in Hc. pose proof (gen_used pos a s c Hc) as U. rewrite E1 in U. destruct U as [h U]. exists h. rewrite !in_app_iff. left; left; exact U.
    - destruct (IH (fun n H => Hp n (or_intror H)) s1 (S pos) n c Hn Hc) as [h U]. rewrite E2 in U. exists h. apply in_or_app. right; exact U.
  Qed.

  Definition exact_reads : Prop := ex = true -> reads_all g.

  Lemma nodes_ok : exact_reads -> forall l pre s f, gnodes g = pre ++ l -> J (length pre) s f [] (treg g l) ->
    (exists f', (forall rest, exec (snd (forward_nodes s (length pre) l) ++ rest) [f] = exec rest [f']) /\
       J (length (gnodes g)) (fst (forward_nodes s (length pre) l)) f' [] (treg g [])) /\
    (ex = true -> clones_ok (treg g []) (snd (forward_nodes s (length pre) l))).
  Proof.
    intros Hex. induction l as [|n l IH]; intros pre s f Eg HJ.
    - rewrite app_nil_r in Eg. cbn. split; [exists f; split; [reflexivity|rewrite Eg; exact HJ]|].
      intros _ p x post E. destruct p; discriminate.
    - assert (Hin : In n (gnodes g)) by (rewrite Eg; apply in_or_app; right; left; reflexivity).
      destruct (lf_plain g L n Hin) as (ins & outs & acc & En).
      assert (HJ0 : J (length pre) s f acc (treg g l)).
      { destruct HJ as [J1 J2]. 
        assert (Hle : forall x, (left_ acc (treg g l) x <= left_ [] (treg g (n :: l)) x)%nat).
        { intros x. pose proof (lf_covered g L n x Hin) as C. rewrite En in C. cbn [accesses c_inputs] in C.
          unfold left_, treg. cbn [map filter sreg]. unfold nreg. rewrite En. cbn [c_inputs]. change (times x []) with 0%nat. lia. }
        split.
        - intros b d Hd Ht. destruct (J1 b d Hd Ht) as (r & Er & Cr). exists r. split; [exact Er|].
          specialize (Hle (aname b)). unfold cmp, exact_reads in *. destruct ex; [|lia].
          destruct (Hex eq_refl n Hin) as [_ C]. specialize (C (aname b)). rewrite En in C. cbn [accesses c_inputs] in C.
          rewrite <- Cr. unfold left_, treg. cbn [map filter sreg]. unfold nreg. rewrite En. cbn [c_inputs]. change (times (aname b) []) with 0%nat. lia.
        - intros b d Hd Hp Hc. apply (J2 b d Hd Hp). destruct Hc as [Hc|[Hc|Hc]]; [left; exact Hc|right; left|right; right; exact Hc].
          specialize (Hle (aname b)). lia. }
      assert (Hr : forall c, In c acc -> readable (length pre) c).
      { intros c Hc. assert (Hca : In (acc_arg c) (map acc_arg (accesses n))) by (rewrite En; apply in_map; exact Hc). split.
        - pose proof (lf_order g L pre n l (acc_arg c) Eg (or_introl Hca)) as Ho. apply in_app_or in Ho.
          assert (Hx : exists b d, defined g b d /\ (d <= length pre)%nat /\ aname b = aname (acc_arg c)).
          { destruct Ho as [Ho|Ho].
            - apply in_map_iff in Ho. destruct Ho as (b & Eb & Hb). exists b, 0%nat. repeat split; [left; auto|lia|exact Eb].
            - apply in_flat_map in Ho. destruct Ho as (m & Hm & Ho). apply in_map_iff in Ho. destruct Ho as (b & Eb & Hb).
              apply In_nth_error in Hm. destruct Hm as [k Hk]. assert (k < length pre)%nat by (apply nth_error_Some; congruence).
              exists b, (S k). repeat split; [right; exists k, m; repeat split; [|exact Hb]|lia|exact Eb].
              rewrite Eg, nth_error_app1 by assumption. exact Hk. }
          destruct Hx as (b & d & Hd & Hp & Eb). exists b, d. repeat split; auto. symmetry.
          apply (lf_kind g L n (acc_arg c) b Hin); [left; exact Hca| |congruence].
          destruct Hd as [[_ Hd]|(k & m & _ & Hk & Hd)]; [left; exact Hd|right]. exists m. split; [eapply nth_error_In; exact Hk|exact Hd].
        - intros (a & Ha & Sa & Ea). apply (unread a n c Ha Sa Hin); [rewrite En; exact Hc|congruence]. }
      assert (Hbo : bound_only acc).
      { intros Eex a Ha. destruct (Hex Eex n Hin) as [C _]. apply C. rewrite En. exact Ha. }
      destruct (gen_ok (length pre) (treg g l) acc s f HJ0 Hr Hbo) as ((f1 & Ex1 & [K1 K2]) & Cl & _).
      cbn [forward_nodes]. subst n. cbn [forward].
      destruct (gen_accesses s (length pre) acc) as [s1 e1] eqn:E1. cbn [fst snd] in *.
      assert (HJ1 : J (length (pre ++ [Plain ins outs acc])) s1 (fold_left (fun f x => set f x true) (map aname outs) f1) [] (treg g l)).
      { rewrite app_length. cbn [length]. split; [exact K1|]. intros b d Hd Hp Hc. apply declare_live.
        destruct (Nat.eq_dec d (S (length pre))) as [->|Hne].
        - right. destruct Hd as [[Hd _]|(k & m & Ek & Hk & Hd)]; [discriminate|]. injection Ek as <-.
          rewrite Eg, nth_error_app2, Nat.sub_diag in Hk by lia. injection Hk as <-. apply in_map. exact Hd.
        - left. apply (K2 b d Hd); [lia|exact Hc]. }
      destruct (IH (pre ++ [Plain ins outs acc]) s1 _ (eq_trans Eg (app_assoc pre [Plain ins outs acc] l)) HJ1) as ((f2 & Ex2 & HJ2) & Cl2).
      replace (length (pre ++ [Plain ins outs acc])) with (S (length pre)) in * by (rewrite app_length; cbn; lia).
      pose proof (forward_used l (fun n H => lf_plain g L n ltac:(rewrite Eg; apply in_or_app; right; right; exact H)) s1 (S (length pre))) as FU.
      destruct (forward_nodes s1 (S (length pre)) l) as [s2 e2] eqn:E2. cbn [fst snd] in *. split.
      + exists f2. split; [|exact HJ2]. intros rest. rewrite <- !app_assoc, Ex1. cbn [app]. cbn [exec exec1 declare]. apply Ex2.
      + intros Eex p x post E. specialize (Cl Eex). specialize (Cl2 Eex).
        assert (CASES : (exists q, e1 = p ++ Use x Cloned :: q /\ post = q ++ [Let (map aname outs)] ++ e2) \/ (exists q, e2 = q ++ Use x Cloned :: post)).
        { rewrite <- app_assoc in E. clear -E. revert p E. induction e1 as [|c e IH]; intros p E; cbn in E.
          - destruct p as [|c p]; cbn in E; [discriminate|]. injection E as _ E. right. exists p. exact E.
          - destruct p as [|c' p]; cbn in E.
            + injection E as -> <-. left. exists e. split; reflexivity.
            + injection E as -> E. destruct (IH p E) as [(q & -> & ->)|[q ->]]; [left; exists q; split; reflexivity|right; exists q; reflexivity]. }
        destruct CASES as [(q & Eq & ->)|[q Eq]].
        * destruct (Cl p x q Eq) as [[h U]|U]; [left; exists h; apply in_or_app; left; exact U|].
          unfold treg in U. destruct (sreg l x) as [|t] eqn:Et; [right; unfold treg; cbn; lia|left].
          assert (Hm : exists m, In m l /\ (0 < nreg m x)%nat).
          { clear -Et. induction l as [|m l IH]; [discriminate|]. cbn in Et. destruct (nreg m x) eqn:Em; [destruct (IH Et) as (m' & H & H')|].
            - exists m'. split; [right; exact H|exact H'].
            - exists m. split; [left; reflexivity|lia]. }
          destruct Hm as (m & Hm & Hpos).
          destruct (Hex Eex m ltac:(rewrite Eg; apply in_or_app; right; right; exact Hm)) as [_ C]. specialize (C x). unfold nreg in Hpos.
          rewrite <- C in Hpos. assert (Hx : In x (map aname (filter tracked (map acc_arg (accesses m))))) by (apply (count_occ_In string_dec); exact Hpos).
          apply in_map_iff in Hx. destruct Hx as (a & Ea & Ha). apply filter_In in Ha. destruct Ha as [Ha _]. apply in_map_iff in Ha. destruct Ha as (c & <- & Hc).
          destruct (FU m c Hm Hc) as [h U']. rewrite Ea in U'. exists h. apply in_or_app. right. right. exact U'.
        * exact (Cl2 q x post Eq).
  Qed.
End Gen.

(** * The whole function *)
Definition flat_out_ok g (f : frame) : Prop := forall a, In a (gouts g) -> f (aname a) = Some true.

Lemma exec_app a : forall b s, exec (a ++ b) s = match exec a s with Some s' => exec b s' | None => None end.
Proof. induction a as [|c a IH]; intros b s; [reflexivity|]. cbn [app exec]. destruct (exec1 c s); [apply IH|reflexivity]. Qed.

Lemma convert_ok (h : how) l : forall f, (forall a, In a l -> is_scalar_tensor a = true -> f (aname a) = Some true) ->
  exists f', exec (flat_map (fun a => if is_scalar_tensor a then [Use (aname a) h; Let [aname a]] else []) l) [f] = Some [f'] /\
    forall x, f x = Some true -> f' x = Some true.
Proof.
  induction l as [|a l IH]; intros f H; [exists f; auto|]. cbn [flat_map].
  destruct (is_scalar_tensor a) eqn:Ea; [|apply IH; intros; apply H; [right|]; assumption].
  set (f1 := set (match h with Moved => set f (aname a) false | _ => f end) (aname a) true).
  assert (Hf1 : forall x, f x = Some true -> f1 x = Some true).
  { intros x Hx. unfold f1, set. destruct (String.eqb_spec (aname a) x) as [E|E]; [reflexivity|].
    destruct h; [destruct (String.eqb_spec (aname a) x); [contradiction|]| |]; exact Hx. }
  destruct (IH f1) as (f' & E' & H'); [intros b Hb Sb; apply Hf1, H; [right|]; assumption|].
  exists f'. split; [|auto]. cbn [app]. rewrite exec_use by (apply H; [left; reflexivity|exact Ea]). cbn [exec exec1 declare fold_left]. exact E'.
Qed.

Lemma return_ok l : forall f, (forall a, In a l -> f (aname a) = Some true) -> NoDup (map aname (filter tracked l)) ->
  (forall a b, In a l -> In b l -> aname a = aname b -> tracked a = tracked b) ->
  exec (map (fun a => Use (aname a) (match aty a with TensorT _ => Moved | _ => Copied end)) l) [f] <> None.
Proof.
  induction l as [|a l IH]; intros f H N K; cbn [map]; [discriminate|]. rewrite exec_use by (apply H; left; reflexivity).
  assert (N' : NoDup (map aname (filter tracked l))) by (cbn in N; destruct (tracked a); [inversion N; assumption|exact N]).
  apply IH; auto; [|intros; apply K; [right|right|]; assumption].
  intros b Hb. destruct (aty a) eqn:Ea; try (apply H; right; exact Hb). unfold set.
  destruct (String.eqb_spec (aname a) (aname b)) as [E|E]; [|apply H; right; exact Hb]. exfalso.
  assert (Ta : tracked a = true) by (unfold tracked; rewrite Ea; reflexivity).
  assert (Tb : tracked b = true) by (rewrite <- (K a b); auto; [left; reflexivity|right; exact Hb]).
  cbn in N. rewrite Ta in N. inversion N as [|? ? N1 _]; subst. apply N1. rewrite E. apply in_map, filter_In. split; assumption.
Qed.

Lemma start_J g ex f : legal_flat g -> (forall a, In a (gins g) -> f (aname a) = Some true) -> J g ex 0 (build_scope g) f [] (treg g (gnodes g)).
Proof.
  intros L Hf. split.
  - intros b d Hd Ht. destruct (build_ok g L b d Hd Ht) as (r & Er & Ht'). exists r. split; [exact Er|].
    unfold left_, cmp. cbn [map filter]. change (times (aname b) []) with 0%nat. destruct ex; lia.
  - intros b d Hd Hp _. destruct Hd as [[_ Hd]|(k & m & -> & _)]; [|lia]. apply Hf. exact Hd.
Qed.

Lemma out_defined g a : legal_flat g -> In a (gouts g) -> exists b d, defined g b d /\ (d <= length (gnodes g))%nat /\ aname b = aname a /\ tracked b = tracked a.
Proof.
  intros L Ha. destruct (lf_outputs g L a Ha) as (b & En & Et & [Hb|(m & Hm & Hb)]).
  - exists b, 0%nat. repeat split; auto; [left; auto|lia].
  - apply In_nth_error in Hm. destruct Hm as [k Hk]. assert (k < length (gnodes g))%nat by (apply nth_error_Some; congruence).
    exists b, (S k). repeat split; auto. right. exists k, m. auto.
Qed.

Lemma accepted_lemma g : legal_flat g -> outputs_once g -> scalar_outputs_unread g -> accepted (codegen_forward g).
Proof.
  intros L O U. unfold accepted, codegen_forward.
  set (f0 := fold_left (fun f x => set f x true) (map aname (gins g)) empty).
  assert (H0 : forall a, In a (gins g) -> f0 (aname a) = Some true).
  { intros a Ha. apply declare_live. right. apply in_map. exact Ha. }
  destruct (convert_ok Copied (gins g) f0) as (f1 & E1 & M1); [intros; apply H0; assumption|].
  assert (H1 : forall a, In a (gins g) -> f1 (aname a) = Some true) by (intros; apply M1, H0; assumption).
  destruct (nodes_ok g L U false (fun e => match Bool.diff_false_true e with end) (gnodes g) [] (build_scope g) f1 eq_refl (start_J g false f1 L H1))
    as ((f2 & E2 & [_ K2]) & _).
  assert (H2 : forall a, In a (gouts g) -> f2 (aname a) = Some true).
  { intros a Ha. destruct (out_defined g a L Ha) as (b & d & Hd & Hp & En & Et). rewrite <- En. apply (K2 b d Hd Hp).
    destruct (tracked b) eqn:Tb; [right|left; reflexivity]. symmetry in Et. unfold tracked in Et. destruct (aty a) eqn:Ea; try discriminate.
    - right. exists a. unfold is_scalar_tensor. rewrite Ea. auto.
    - left. unfold left_, treg. cbn [map filter sreg]. assert (0 < times (aname b) (filter is_tensor (gouts g)))%nat; [|lia].
      apply times_pos. rewrite En. apply in_map, filter_In. split; [exact Ha|]. unfold is_tensor. rewrite Ea. reflexivity. }
  destruct (convert_ok Moved (gouts g) f2) as (f3 & E3 & M3); [intros; apply H2; assumption|].
  rewrite (exec_app [Let (map aname (gins g))]). change (exec [Let (map aname (gins g))] [empty]) with (Some [f0]). cbn iota.
  rewrite exec_app. match goal with |- match ?e with _ => _ end <> _ => replace e with (Some [f1]) by (symmetry; exact E1) end. cbn iota.
  cbn [length] in E2. rewrite E2, exec_app. match goal with |- match ?e with _ => _ end <> _ => replace e with (Some [f3]) by (symmetry; exact E3) end. cbn iota.
  apply return_ok; [intros; apply M3, H2; assumption|exact O|].
  intros a b Ha Hb E. destruct (out_defined g a L Ha) as (a' & da & Hda & _ & Ena & Eta). destruct (out_defined g b L Hb) as (b' & db & Hdb & _ & Enb & Etb).
  assert (a' = b') by (apply (defined_unique g a' b' da db L Hda Hdb); congruence). congruence.
Qed.

Lemma clones_lemma g : legal_flat g -> scalar_outputs_unread g -> reads_all g ->
  forall pre x post, codegen_forward g = pre ++ Use x Cloned :: post -> used x post.
Proof.
  intros L U RA pre x post E. unfold codegen_forward in E.
  set (f0 := fold_left (fun f x => set f x true) (map aname (gins g)) empty).
  assert (H0 : forall a, In a (gins g) -> f0 (aname a) = Some true).
  { intros a Ha. apply declare_live. right. apply in_map. exact Ha. }
  destruct (nodes_ok g L U true (fun _ => RA) (gnodes g) [] (build_scope g) f0 eq_refl (start_J g true f0 L H0)) as (_ & Cl).
  specialize (Cl eq_refl). cbn [length] in Cl.
  remember (snd (forward_nodes (build_scope g) 0 (gnodes g))) as mid eqn:Em.
  set (tail := flat_map _ (gouts g) ++ map _ (gouts g)) in E.
  set (head := [Let (map aname (gins g))] ++ flat_map (fun a => if is_scalar_tensor a then [Use (aname a) Copied; Let [aname a]] else []) (gins g)) in *.
  assert (E' : head ++ mid ++ tail = pre ++ Use x Cloned :: post) by (unfold head; rewrite <- app_assoc; exact E).
  assert (NH : ~ In (Use x Cloned) head).
  { unfold head. intros H. apply in_app_or in H. destruct H as [[H|[]]|H]; [discriminate|]. apply in_flat_map in H. destruct H as (a & _ & H).
    destruct (is_scalar_tensor a); [|destruct H]. destruct H as [H|[H|[]]]; discriminate. }
  assert (NT : ~ In (Use x Cloned) tail).
  { unfold tail. intros H. apply in_app_or in H. destruct H as [H|H].
    - apply in_flat_map in H. destruct H as (a & _ & H). destruct (is_scalar_tensor a); [|destruct H]. destruct H as [H|[H|[]]]; discriminate.
    - apply in_map_iff in H. destruct H as (a & H & _). destruct (aty a); discriminate. }
  assert (SPLIT : forall (A : Type) (a b p q : list A) (c : A), a ++ b = p ++ c :: q -> (exists r, a = p ++ c :: r /\ q = r ++ b) \/ (exists r, b = r ++ c :: q)).
  { clear. intros A a. induction a as [|y a IH]; intros b p q c E; cbn in E; [right; exists p; exact E|].
    destruct p as [|z p]; cbn in E.
    - injection E as -> <-. left. exists a. split; reflexivity.
    - injection E as -> E. destruct (IH b p q c E) as [(r & -> & ->)|[r ->]]; [left; exists r; split; reflexivity|right; exists r; reflexivity]. }
  destruct (SPLIT _ _ _ _ _ _ E') as [(r & Eh & _)|[r Er]].
  { exfalso. apply NH. rewrite Eh. apply in_or_app. right; left; reflexivity. }
  destruct (SPLIT _ _ _ _ _ _ Er) as [(q & Eq & ->)|[q Eq]].
  2:{ exfalso. apply NT. rewrite Eq. apply in_or_app. right; left; reflexivity. }
  destruct (Cl r x q Eq) as [[h Uh]|Hp].
  - exists h. apply in_or_app. left; exact Uh.
  - unfold treg in Hp. cbn [sreg] in Hp. assert (Hx : In x (map aname (filter is_tensor (gouts g)))) by (apply (count_occ_In string_dec); exact Hp).
    apply in_map_iff in Hx. destruct Hx as (a & Ea & Ha). apply filter_In in Ha. destruct Ha as [Ha _].
    eexists. apply in_or_app. right. unfold tail. apply in_or_app. right. apply in_map_iff. exists a. split; [rewrite Ea; reflexivity|exact Ha].
Qed.
