(** Lemmas about reshaping and transposing. *)
From Verif Require Import IR_Model IR_Spec IR_Proofs Tensor_Spec Tensor_Proofs ShapeOps_Spec Permute_Model Permute_Spec.
From Coq Require Import Lia ZifyBool ZifyNat ZifyN.
Local Open Scope N_scope.

(** * Offsets without the dimensions of size 1 *)
Definition off (l : list (N * N)) : N := offset (map fst l) (map snd l).
Definition big (di : N * N) : bool := negb (fst di =? 1).

Lemma off_big : forall l, Forall (fun di => snd di < fst di) l ->
  prodN (map fst (filter big l)) = prodN (map fst l) /\ off (filter big l) = off l.
Proof.
  unfold off. induction l as [|[d i] l IH]; intros H; [auto|]. inversion H as [|? ? Hd Hl]; subst. cbn in Hd.
  destruct (IH Hl) as [I1 I2]. cbn [filter].
  change (big (d, i)) with (negb (d =? 1)).
  destruct (N.eqb_spec d 1) as [->|Hne]; cbn [negb].
  - assert (i = 0) by lia. subst. split; [change (prodN (map fst (filter big l)) = 1 * prodN (map fst l))|
      change (offset (map fst (filter big l)) (map snd (filter big l)) = 0 * prodN (map fst l) + offset (map fst l) (map snd l))];
      rewrite ?I1, ?I2; lia.
  - cbn [map fst snd prodN offset]. rewrite I1. split; [reflexivity|]. f_equal. exact I2.
Qed.

Lemma sorted_perm_eq : forall a b, StronglySorted lt a -> StronglySorted lt b -> Permutation a b -> a = b.
Proof.
  induction a as [|x a IH]; intros b Ha Hb Hp; [apply Permutation_nil in Hp; auto|].
  destruct b as [|y b]; [apply Permutation_sym, Permutation_nil in Hp; discriminate|].
  inversion Ha as [|? ? Ha1 Ha2]; subst. inversion Hb as [|? ? Hb1 Hb2]; subst.
  assert (E : x = y).
  { assert (Hx : In x (y :: b)) by (eapply Permutation_in; [exact Hp|left; reflexivity]).
    assert (Hy : In y (x :: a)) by (eapply Permutation_in; [apply Permutation_sym; exact Hp|left; reflexivity]).
    rewrite Forall_forall in Ha2, Hb2.
    destruct Hx as [|Hx]; [congruence|]. destruct Hy as [|Hy]; [congruence|].
    specialize (Ha2 _ Hy). specialize (Hb2 _ Hx). lia. }
  subst y. f_equal. apply IH; auto. eapply Permutation_cons_inv. exact Hp.
Qed.

Lemma sorted_seq n : forall k, StronglySorted lt (seq k n).
Proof.
  induction n as [|n IH]; intros k; cbn; [constructor|]. constructor; [apply IH|].
  apply Forall_forall. intros x Hx. apply in_seq in Hx. lia.
Qed.
Lemma sorted_filter (f : nat -> bool) l : StronglySorted lt l -> StronglySorted lt (filter f l).
Proof.
  induction 1 as [|x l Hl IH Hx]; cbn; [constructor|]. destruct (f x); [|exact IH]. constructor; [exact IH|].
  apply Forall_forall. intros y Hy. apply filter_In in Hy. rewrite Forall_forall in Hx. apply Hx. tauto.
Qed.
Lemma perm_filter {A} (f : A -> bool) a b : Permutation a b -> Permutation (filter f a) (filter f b).
Proof.
  induction 1 as [|x a b H IH|x y a|a b c H1 IH1 H2 IH2]; cbn; auto.
  - destruct (f x); auto.
  - destruct (f x), (f y); auto. apply perm_swap.
  - etransitivity; eassumption.
Qed.
Lemma filter_map_swap {A B} (f : A -> B) (g : B -> bool) l : filter g (map f l) = map f (filter (fun x => g (f x)) l).
Proof. induction l as [|a l IH]; cbn; [reflexivity|]. destruct (g (f a)); cbn; rewrite IH; reflexivity. Qed.

Lemma map_nth_seq {A} (d : A) l : map (fun i => nth i l d) (seq 0 (length l)) = l.
Proof.
  induction l as [|a l IH]; cbn; [reflexivity|]. f_equal. rewrite <- seq_shift, map_map. exact IH.
Qed.
Lemma pick_seq s : pick (seq 0 (length s)) s = s.
Proof. apply map_nth_seq. Qed.

Lemma prodN_perm a b : Permutation a b -> prodN a = prodN b.
Proof. induction 1; cbn; lia. Qed.
Lemma pick_perm p s : Permutation p (seq 0 (length s)) -> Permutation (pick p s) s.
Proof. intros H. rewrite <- (pick_seq s) at 2. apply Permutation_map. exact H. Qed.
Lemma pick_length p s : length (pick p s) = length p.
Proof. apply map_length. Qed.

Lemma valid_nth s idx i : valid_idx s idx -> (i < length s)%nat -> nth i idx 0 < nth i s 0.
Proof.
  unfold valid_idx. intros H. revert i. induction H as [|x y l l' Hxy H IH]; intros i Hi; [cbn in Hi; lia|].
  destruct i; cbn in *; [exact Hxy|]. apply IH. lia.
Qed.
Lemma perm_lt p n i : Permutation p (seq 0 n) -> In i p -> (i < n)%nat.
Proof. intros H Hi. eapply Permutation_in in Hi; [|exact H]. apply in_seq in Hi. lia. Qed.

Lemma pick_valid p s idx : Permutation p (seq 0 (length s)) -> valid_idx s idx -> valid_idx (pick p s) (pick p idx).
Proof.
  intros Hp Hv. unfold valid_idx, pick.
  assert (H : forall i, In i p -> nth i idx 0 < nth i s 0).
  { intros i Hi. apply valid_nth; [exact Hv|]. exact (perm_lt _ _ _ Hp Hi). }
  clear -H. induction p as [|i p IH]; cbn; constructor; [apply H; left; reflexivity|].
  apply IH. intros; apply H; right; assumption.
Qed.

Lemma off_pick p s idx : off (map (fun i => (nth i s 0, nth i idx 0)) p) = offset (pick p s) (pick p idx).
Proof. unfold off, pick. rewrite !map_map. reflexivity. Qed.

(** Dimensions of size 1 may move: the offsets stay. *)
Lemma offset_in_order p s idx : Permutation p (seq 0 (length s)) -> in_order p s -> valid_idx s idx ->
  offset (pick p s) (pick p idx) = offset s idx.
Proof.
  intros Hp Ho Hv. set (f := fun i => (nth i s 0, nth i idx 0)).
  assert (Hl : length idx = length s) by (eapply Forall2_length; exact Hv).
  assert (E0 : offset s idx = off (map f (seq 0 (length s)))).
  { unfold f. rewrite off_pick. rewrite pick_seq. rewrite <- Hl, pick_seq. reflexivity. }
  rewrite E0, <- off_pick. fold f.
  assert (Hbig : forall q, (forall i, In i q -> (i < length s)%nat) -> Forall (fun di => snd di < fst di) (map f q)).
  { intros q Hq. apply Forall_map, Forall_forall. intros i Hi. cbn. apply valid_nth; auto. }
  destruct (off_big (map f p)) as [_ <-]; [apply Hbig; intros; eapply perm_lt; eassumption|].
  destruct (off_big (map f (seq 0 (length s)))) as [_ <-]; [apply Hbig; intros i Hi; apply in_seq in Hi; lia|].
  rewrite !filter_map_swap. f_equal. f_equal. unfold f, big. cbn [fst].
  apply sorted_perm_eq.
  - exact Ho.
  - apply sorted_filter, sorted_seq.
  - apply perm_filter. exact Hp.
Qed.

Lemma offset_surj s k : (k < N.to_nat (prodN s))%nat -> exists idx, valid_idx s idx /\ N.to_nat (offset s idx) = k.
Proof.
  intros Hk. destruct (nth_error (indices s) k) as [idx|] eqn:E.
  - assert (Hv : valid_idx s idx) by (apply indices_In; eapply nth_error_In; exact E).
    exists idx. split; [exact Hv|].
    pose proof (indices_offset s idx Hv) as E2.
    assert (Hl : (N.to_nat (offset s idx) < length (indices s))%nat) by (apply nth_error_Some; congruence).
    apply (proj1 (NoDup_nth_error (indices s)) (indices_NoDup s)); [exact Hl|congruence].
  - apply nth_error_None in E. rewrite indices_length in E. lia.
Qed.

Lemma transposed_data {A} p (x r : tensor A) : transposed p x r -> twf x -> in_order p (tshape x) -> tdata r = tdata x.
Proof.
  intros (Hp & Hr & Hs & Hg) Hx Ho. apply nth_error_ext. intros k.
  assert (Hlen : length (tdata r) = length (tdata x)).
  { unfold twf in *. rewrite Hr, Hx, Hs. f_equal. apply prodN_perm, pick_perm. exact Hp. }
  destruct (Nat.lt_ge_cases k (length (tdata x))) as [Hk|Hk].
  - unfold twf in Hx. rewrite Hx in Hk. destruct (offset_surj _ _ Hk) as (idx & Hv & <-).
    specialize (Hg idx Hv). unfold get in Hg. rewrite Hs, (offset_in_order _ _ _ Hp Ho Hv) in Hg. exact Hg.
  - rewrite (proj2 (nth_error_None (tdata r) k)), (proj2 (nth_error_None (tdata x) k)); [reflexivity|lia|lia].
Qed.

(** * Existence of the transpose *)
Fixpoint index_of (i : nat) (p : list nat) : nat :=
  match p with [] => 0%nat | j :: r => if (j =? i)%nat then 0%nat else S (index_of i r) end.
Lemma index_of_nth p : forall i, In i p -> nth_error p (index_of i p) = Some i.
Proof.
  induction p as [|j p IH]; intros i Hi; [destruct Hi|]. cbn. destruct (Nat.eqb_spec j i) as [->|Hne]; [reflexivity|].
  cbn. apply IH. destruct Hi; [contradiction|assumption].
Qed.
Definition unpick (p : list nat) (j : list N) : list N := map (fun i => nth (index_of i p) j 0) (seq 0 (length p)).

Lemma pick_nth_error p l k i : nth_error p k = Some i -> nth_error (pick p l) k = Some (nth i l 0).
Proof. unfold pick. intros H. rewrite nth_error_map, H. reflexivity. Qed.

Lemma unpick_pick p l : Permutation p (seq 0 (length l)) -> unpick p (pick p l) = l.
Proof.
  intros Hp. unfold unpick. assert (Hl : length p = length l) by (rewrite (Permutation_length Hp), seq_length; reflexivity).
  rewrite Hl. transitivity (map (fun i => nth i l 0) (seq 0 (length l))); [|apply map_nth_seq]. apply map_ext_in. intros i Hi.
  assert (Hin : In i p) by (eapply Permutation_in; [apply Permutation_sym; exact Hp|exact Hi]).
  apply nth_error_nth. apply pick_nth_error, index_of_nth. exact Hin.
Qed.

Lemma nodup_nth_inj {A} (l : list A) i j x : NoDup l -> nth_error l i = Some x -> nth_error l j = Some x -> i = j.
Proof.
  intros Hn Hi Hj. apply (proj1 (NoDup_nth_error l) Hn); [apply nth_error_Some; congruence|congruence].
Qed.
Lemma pick_unpick p n j : Permutation p (seq 0 n) -> length j = n -> pick p (unpick p j) = j.
Proof.
  intros Hp Hj. assert (Hl : length p = n) by (rewrite (Permutation_length Hp), seq_length; reflexivity).
  assert (Hnd : NoDup p) by (eapply Permutation_NoDup; [apply Permutation_sym; exact Hp|apply seq_NoDup]).
  apply nth_error_ext. intros k. destruct (nth_error p k) as [i|] eqn:E.
  - rewrite (pick_nth_error _ _ _ _ E). assert (Hi : (i < n)%nat) by (eapply perm_lt; [exact Hp|eapply nth_error_In; exact E]).
    unfold unpick. rewrite (nth_indep _ 0 (nth (index_of 0 p) j 0)) by (rewrite map_length, seq_length; lia).
    rewrite (map_nth (fun i => nth (index_of i p) j 0) (seq 0 (length p)) 0%nat i).
    rewrite seq_nth by lia. cbn.
    assert (Hk : index_of i p = k).
    { eapply nodup_nth_inj; [exact Hnd|apply index_of_nth; eapply nth_error_In; exact E|exact E]. }
    rewrite Hk. symmetry. apply nth_error_nth'. assert (k < length p)%nat by (apply nth_error_Some; congruence). lia.
  - assert (length p <= k)%nat by (apply nth_error_None; exact E).
    rewrite (proj2 (nth_error_None (pick p _) k)) by (rewrite pick_length; lia).
    symmetry. apply nth_error_None. lia.
Qed.

Lemma unpick_valid p s j : Permutation p (seq 0 (length s)) -> valid_idx (pick p s) j -> valid_idx s (unpick p j).
Proof.
  intros Hp Hv. assert (Hl : length p = length s) by (rewrite (Permutation_length Hp), seq_length; reflexivity).
  unfold valid_idx. rewrite <- (unpick_pick p s Hp). unfold unpick. 
  assert (H : forall i, In i (seq 0 (length p)) -> nth (index_of i p) j 0 < nth (index_of i p) (pick p s) 0).
  { intros i Hi. apply valid_nth; [exact Hv|]. rewrite pick_length. apply nth_error_Some. rewrite index_of_nth; [discriminate|].
    eapply Permutation_in; [apply Permutation_sym; exact Hp|]. rewrite <- Hl. exact Hi. }
  clear -H. induction (seq 0 (length p)) as [|i q IH]; cbn; constructor; [apply H; left; reflexivity|].
  apply IH. intros; apply H; right; assumption.
Qed.

Definition transpose {A} (p : list nat) (x : tensor A) : option (tensor A) :=
  tab (pick p (tshape x)) (fun j => get x (unpick p j)).
Lemma transpose_ok {A} p (x : tensor A) : Permutation p (seq 0 (length (tshape x))) -> twf x ->
  exists r, transpose p x = Some r /\ transposed p x r.
Proof.
  intros Hp Hx. unfold transpose. destruct (tab_Some (pick p (tshape x)) (fun j => get x (unpick p j))) as [r Hr].
  { intros j Hj. destruct (get_valid x (unpick p j) Hx (unpick_valid _ _ _ Hp Hj)) as (a & Ha & _). eauto. }
  exists r. split; [exact Hr|]. destruct (tab_wf _ _ _ Hr) as [Hw Hs]. repeat split; auto.
  intros idx Hv. rewrite (get_tab _ _ _ _ Hr (pick_valid _ _ _ Hp Hv)).
  rewrite unpick_pick; [reflexivity|]. unfold valid_idx in Hv. rewrite (Forall2_length Hv). exact Hp.
Qed.

(** * Necessity *)
Definition unit_at (i : nat) (p : list nat) : list N := map (fun q => if (q =? i)%nat then 1 else 0) p.

Lemma offset_zero s : forall p i, ~ In i p -> offset s (unit_at i p) = 0.
Proof.
  induction s as [|d s IH]; intros p i Hi; [reflexivity|]. destruct p as [|q p]; [reflexivity|]. cbn.
  destruct (Nat.eqb_spec q i) as [->|]; [exfalso; apply Hi; left; reflexivity|].
  cbn. apply IH. intros H; apply Hi; right; exact H.
Qed.
Lemma offset_unit : forall p s i a, NoDup p -> length p = length s -> nth_error p a = Some i ->
  offset s (unit_at i p) = prodN (skipn (S a) s).
Proof.
  induction p as [|q p IH]; intros s i a Hn Hl Ha; [destruct a; discriminate|].
  destruct s as [|d s]; [discriminate|]. inversion Hn as [|? ? Hq Hp]; subst. cbn in Hl.
  cbn [unit_at map offset]. change (map (fun q0 => if (q0 =? i)%nat then 1 else 0) p) with (unit_at i p).
  destruct a as [|a].
  - injection Ha as ->. rewrite Nat.eqb_refl, offset_zero by assumption. cbn [skipn]. lia.
  - cbn in Ha. destruct (Nat.eqb_spec q i) as [->|].
    + exfalso. apply Hq. eapply nth_error_In. exact Ha.
    + rewrite (IH s i a) by (auto; lia). cbn [skipn]. lia.
Qed.

Lemma prodN_pos s : Forall (fun d => 1 <= d) s -> 1 <= prodN s.
Proof. induction 1; cbn; nia. Qed.
Lemma Forall_skipn {A} (P : A -> Prop) n : forall l, Forall P l -> Forall P (skipn n l).
Proof. induction n; intros l H; [exact H|]. destruct H; cbn; auto. Qed.

Lemma stride_lt s : Forall (fun d => 1 <= d) s -> forall a b d, (a < b)%nat -> nth_error s b = Some d -> d <> 1 ->
  prodN (skipn (S b) s) < prodN (skipn (S a) s).
Proof.
  intros Hs a b d Hab Hb Hd.
  assert (Hle : forall k s, Forall (fun d => 1 <= d) s -> prodN (skipn k s) <= prodN s).
  { induction k as [|k IH]; intros l Hl; [reflexivity|]. destruct Hl as [|x l Hx Hl]; [reflexivity|].
    cbn [skipn prodN]. specialize (IH l Hl). pose proof (prodN_pos l Hl). nia. }
  assert (E : skipn b s = d :: skipn (S b) s).
  { clear -Hb. revert b Hb. induction s as [|x s IH]; intros b Hb; [destruct b; discriminate|].
    destruct b; cbn in Hb; [injection Hb as ->; reflexivity|]. cbn [skipn]. apply IH. exact Hb. }
  assert (E2 : prodN (skipn b s) <= prodN (skipn (S a) s)).
  { replace b with ((b - S a) + S a)%nat by lia.
    assert (Hss : forall i j (l : list N), skipn (i + j) l = skipn i (skipn j l)).
    { intros i j. induction j as [|j IH]; intros l; [rewrite Nat.add_0_r; reflexivity|].
      rewrite Nat.add_succ_r. destruct l; [cbn; rewrite skipn_nil; reflexivity|]. cbn. apply IH. }
    rewrite Hss. apply Hle, Forall_skipn. exact Hs. }
  rewrite E in E2. cbn [prodN] in E2. pose proof (prodN_pos _ (Forall_skipn _ (S b) s Hs)).
  assert (1 <= d) by (rewrite Forall_forall in Hs; apply Hs; eapply nth_error_In; exact Hb). nia.
Qed.

Lemma sorted_pairs (f : nat -> bool) : forall p,
  (forall a b i j, (a < b)%nat -> nth_error p a = Some i -> nth_error p b = Some j -> f i = true -> f j = true -> (i < j)%nat) ->
  StronglySorted lt (filter f p).
Proof.
  induction p as [|i p IH]; intros H; cbn; [constructor|].
  assert (Hp : StronglySorted lt (filter f p)).
  { apply IH. intros a b x y Hab Ha Hb. apply (H (S a) (S b)); [lia|exact Ha|exact Hb]. }
  destruct (f i) eqn:Ei; [|exact Hp]. constructor; [exact Hp|]. apply Forall_forall. intros y Hy.
  apply filter_In in Hy. destruct Hy as [Hy Hf]. apply In_nth_error in Hy. destruct Hy as [b Hb].
  apply (H 0%nat (S b) i y); auto. lia.
Qed.

Lemma pick_unit p n i : Permutation p (seq 0 n) -> (i < n)%nat -> pick p (unit_at i (seq 0 n)) = unit_at i p.
Proof.
  intros Hp Hi. unfold pick. unfold unit_at at 2. apply map_ext_in. intros q Hq.
  pose proof (perm_lt _ _ _ Hp Hq) as Hqn. unfold unit_at.
  rewrite (nth_indep _ 0 ((fun q => if (q =? i)%nat then 1 else 0) 0%nat)) by (rewrite map_length, seq_length; lia).
  rewrite (map_nth (fun q => if (q =? i)%nat then 1 else 0) (seq 0 n) 0%nat q). rewrite seq_nth by lia. reflexivity.
Qed.

Lemma unit_valid s i d : Forall (fun d => 1 <= d) s -> nth_error s i = Some d -> d <> 1 ->
  valid_idx s (unit_at i (seq 0 (length s))).
Proof.
  intros Hs Hi Hd. unfold valid_idx, unit_at.
  assert (H : forall k l, (forall j x, nth_error l j = Some x -> 1 <= x /\ ((k + j)%nat = i -> 2 <= x)) ->
    Forall2 (fun a b => a < b) (map (fun q => if (q =? i)%nat then 1 else 0) (seq k (length l))) l).
  { intros k l. revert k. induction l as [|x l IH]; intros k H; cbn; constructor.
    - destruct (H 0%nat x eq_refl) as [H1 H2]. destruct (Nat.eqb_spec k i); [|lia]. assert (2 <= x) by (apply H2; lia). lia.
    - apply IH. intros j y Hy. specialize (H (S j) y Hy). replace (S k + j)%nat with (k + S j)%nat by lia. exact H. }
  apply H. intros j x Hj. rewrite Forall_forall in Hs.
  assert (1 <= x) by (apply Hs; eapply nth_error_In; exact Hj). split; [assumption|].
  cbn. intros ->. rewrite Hi in Hj. injection Hj as ->. lia.
Qed.

Lemma in_order_needed p s : Permutation p (seq 0 (length s)) -> Forall (fun d => 1 <= d) s ->
  (forall idx, valid_idx s idx -> offset (pick p s) (pick p idx) = offset s idx) -> in_order p s.
Proof.
  intros Hp Hs H. unfold in_order. apply sorted_pairs. intros a b i j Hab Ha Hb Hi Hj.
  apply negb_true_iff, N.eqb_neq in Hi. apply negb_true_iff, N.eqb_neq in Hj.
  assert (Hil : (i < length s)%nat) by (eapply perm_lt; [exact Hp|eapply nth_error_In; exact Ha]).
  assert (Hjl : (j < length s)%nat) by (eapply perm_lt; [exact Hp|eapply nth_error_In; exact Hb]).
  assert (Hnd : NoDup p) by (eapply Permutation_NoDup; [apply Permutation_sym; exact Hp|apply seq_NoDup]).
  assert (Hl : length p = length s) by (rewrite (Permutation_length Hp), seq_length; reflexivity).
  assert (Hstr : forall q c, nth_error p c = Some q -> nth q s 0 <> 1 ->
    prodN (skipn (S c) (pick p s)) = prodN (skipn (S q) s)).
  { intros q c Hc Hq. assert (Hql : (q < length s)%nat) by (eapply perm_lt; [exact Hp|eapply nth_error_In; exact Hc]).
    assert (Hv := unit_valid s q (nth q s 0) Hs (nth_error_nth' s 0 Hql) Hq).
    specialize (H _ Hv). rewrite pick_unit in H by assumption.
    rewrite (offset_unit p (pick p s) q c) in H; [|exact Hnd|rewrite pick_length; reflexivity|exact Hc].
    rewrite (offset_unit (seq 0 (length s)) s q q) in H; [exact H|apply seq_NoDup|apply seq_length|].
    rewrite (nth_error_nth' _ 0%nat) by (rewrite seq_length; exact Hql). rewrite seq_nth by exact Hql. reflexivity. }
  destruct (Nat.lt_trichotomy i j) as [|[->|Hlt]]; [assumption| |].
  - assert (a = b) by (eapply nodup_nth_inj; eassumption). lia.
  - exfalso.
    assert (Hsp : Forall (fun d => 1 <= d) (pick p s)).
    { apply Forall_forall. intros x Hx. rewrite Forall_forall in Hs. apply Hs.
      eapply Permutation_in; [apply pick_perm; exact Hp|exact Hx]. }
    pose proof (stride_lt _ Hsp a b (nth j s 0) Hab (pick_nth_error _ _ _ _ Hb) Hj) as S1.
    pose proof (stride_lt _ Hs j i (nth i s 0) Hlt (nth_error_nth' s 0 Hil) Hi) as S2.
    rewrite (Hstr i a Ha Hi), (Hstr j b Hb Hj) in S1. lia.
Qed.

Lemma in_order_iff p s : Permutation p (seq 0 (length s)) -> Forall (fun d => 1 <= d) s ->
  (in_order p s <-> forall (x r : tensor Z), tshape x = s -> twf x -> transposed p x r -> tdata r = tdata x).
Proof.
  intros Hp Hs. split.
  - intros Ho x r Hx Hw Ht. apply (transposed_data p); auto. rewrite Hx. exact Ho.
  - intros H. apply in_order_needed; auto. intros idx Hv.
    set (x := mkT s (map Z.of_nat (seq 0 (N.to_nat (prodN s)))) : tensor Z).
    assert (Hw : twf x) by (unfold twf, x; cbn; rewrite map_length, seq_length; reflexivity).
    destruct (transpose_ok p x Hp Hw) as (r & _ & Ht).
    specialize (H x r eq_refl Hw Ht). destruct Ht as (_ & Hr & Hrs & Hg). specialize (Hg idx Hv).
    assert (Hget : forall o, (o < N.to_nat (prodN s))%nat -> nth_error (tdata x) o = Some (Z.of_nat o)).
    { intros o Ho. cbn. rewrite nth_error_map, (nth_error_nth' _ 0%nat) by (rewrite seq_length; exact Ho).
      rewrite seq_nth by exact Ho. reflexivity. }
    unfold get in Hg. rewrite H, Hrs in Hg. cbn [tshape x] in Hg.
    pose proof (offset_lt _ _ Hv) as B1. pose proof (offset_lt _ _ (pick_valid _ _ _ Hp Hv)) as B2.
    rewrite (prodN_perm _ _ (pick_perm p s Hp)) in B2.
    change (tshape x) with s in Hg.
    rewrite !Hget in Hg by lia. injection Hg as Hg. lia.
Qed.

(** * The graph *)
Section Graph.
  Variable scalar : arg -> option Z.
  Variable sem : zsem.
  Variable static : N -> option zt.
  Variable nodes : list rnode.
  Variable ef : string -> option zt.
  Hypothesis laws : shape_laws sem.
  Hypothesis apart : names_apart nodes.
  Hypothesis whole : whole_shapes nodes.
  Hypothesis single : single_indices scalar static nodes ef.
  Hypothesis onev : one_value_per_name static nodes ef.
  Hypothesis all_hold : Forall (holds sem static ef) nodes.

  Lemma producer_ok x n : producer nodes x = Some n -> In n nodes /\ In x (out_names n).
  Proof.
    unfold producer. intros H. apply find_some in H. destruct H as [H1 H2]. split; [apply in_rev; exact H1|].
    apply mem_str_In. exact H2.
  Qed.
  Lemma one_out n x (r : zt) : Forall2 (fun x v => ef x = Some v) (out_names n) [r] -> In x (out_names n) -> ef x = Some r.
  Proof.
    intros H Hx. inversion H as [|a b l l' Hab Hl E1 E2]; subst. inversion Hl; subst.
    rewrite <- E1 in Hx. destruct Hx as [<-|[]]. exact Hab.
  Qed.
  Lemma produced_eval n m i : In n nodes -> In i (ninputs n) -> In m nodes -> In (aname i) (out_names m) ->
    arg_eval static ef i = option_map Some (ef (aname i)).
  Proof.
    intros Hn Hi Hm Ho. specialize (apart n i Hn Hi). unfold arg_eval.
    assert (In (aname i) (flat_map (fun m => map aname (noutputs m)) nodes)) by (apply in_flat_map; exists m; auto).
    destruct (asrc i); try reflexivity; contradiction.
  Qed.

  (** The value of a name produced by a node of the given kind. *)
  Lemma chain_ok n i len z d : In n nodes -> In i (ninputs n) -> chain scalar nodes len i = Some (Some (z, d)) ->
    exists m j, In m nodes /\ ntype m = "Shape"%string /\ In j (ninputs m) /\ aname j = d /\
      forall x, arg_eval static ef j = Some (Some x) -> length (tshape x) = len ->
        exists u, arg_eval static ef i = Some (Some u) /\ tdata u = [Z.of_N (nth (Z.to_nat z) (tshape x) 0)] /\
          (0 <= z < Z.of_nat len)%Z.
  Proof.
    intros Hn Hi. unfold chain.
    destruct (producer nodes (aname i)) as [nu|] eqn:Pu; [|discriminate].
    destruct (String.eqb_spec (ntype nu) "Unsqueeze") as [Tu|]; [|discriminate]. cbn [negb].
    destruct (ninputs nu) as [|u us] eqn:Iu; [discriminate|].
    destruct (producer nodes (aname u)) as [ng|] eqn:Pg; [|discriminate].
    destruct (String.eqb_spec (ntype ng) "Gather") as [Tg|]; [|discriminate]. cbn [negb].
    destruct (producer_ok _ _ Pu) as [Nu Ou]. destruct (producer_ok _ _ Pg) as [Ng Og].
    intros H.
    assert (Hax : get_attr ng "axis" = None \/ get_attr ng "axis" = Some (AInt 0)).
    { destruct (get_attr ng "axis") as [[]|]; try discriminate; [|left; reflexivity].
      destruct z0; try discriminate. right; reflexivity. }
    assert (H' : match nth_error (ninputs ng) 1 with
                    | None => Some None
                    | Some index =>
                        match scalar index with
                        | None => Some None
                        | Some z =>
                            let z' := (if z <? 0 then z + Z.of_nat len else z)%Z in
                            match ninputs ng with
                            | [] => None
                            | g :: _ =>
                                match producer nodes (aname g) with
                                | None => Some None
                                | Some shape =>
                                    if negb (String.eqb (ntype shape) "Shape") then Some None else
                                    match ninputs shape with
                                    | [] => None
                                    | d :: _ => Some (Some (z', aname d))
                                    end
                                end
                            end
                        end
                    end = Some (Some (z, d))).
    { destruct Hax as [E|E]; rewrite E in H; exact H. }
    clear H. cbn zeta in H'.
    destruct (nth_error (ninputs ng) 1) as [index|] eqn:Ix; [|discriminate].
    destruct (scalar index) as [z0|] eqn:Sx; [|discriminate].
    destruct (ninputs ng) as [|g gs] eqn:Ig; [discriminate|].
    destruct (producer nodes (aname g)) as [nsh|] eqn:Ps; [|discriminate].
    destruct (String.eqb_spec (ntype nsh) "Shape") as [Ts|]; [|discriminate]. cbn [negb] in H'.
    destruct (ninputs nsh) as [|j js] eqn:Is; [discriminate|].
    injection H' as Ez Ed.
    destruct (producer_ok _ _ Ps) as [Ns Os].
    exists nsh, j. split; [exact Ns|]. split; [exact Ts|]. split; [rewrite Is; left; reflexivity|]. split; [exact Ed|].
    intros x Hx Hlen.
    pose proof (proj1 (Forall_forall _ _) all_hold) as HH.
    (* Shape *)
    destruct (HH nsh Ns) as (vs & outs & A1 & A2 & A3).
    rewrite Is in A1. rewrite Ts, (whole nsh Ns Ts) in A2.
    destruct (sl_shape _ laws _ _ _ A2) as (x' & rs & -> & -> & Hrs).
    cbn in A1. rewrite Hx in A1. destruct (args_eval static ef js); [|discriminate]. injection A1 as <- ->.
    pose proof (one_out _ _ _ A3 Os) as Eg.
    (* Gather *)
    destruct (HH ng Ng) as (vs & outs & B1 & B2 & B3). rewrite Tg in B2.
    destruct (sl_gather _ laws _ _ _ _ B2 Hax) as (gd & gi & rg & -> & -> & Hrg).
    assert (Eg' : arg_eval static ef g = Some (Some rs)).
    { rewrite (produced_eval ng nsh g Ng) ; [rewrite Eg; reflexivity|rewrite Ig; left; reflexivity|exact Ns|exact Os]. }
    destruct (single ng index z0 Ng Tg) as (vi & Evi & Dvi); [rewrite Ig; exact Ix|exact Sx|].
    rewrite Ig in B1. cbn in Ix. destruct gs as [|g2 gs]; [discriminate|]. injection Ix as ->.
    cbn in B1. rewrite Eg', Evi in B1. destruct (args_eval static ef gs); [|discriminate].
    injection B1 as <- <- ->.
    destruct (Hrg _ Dvi) as (v & Hv & Hrange & Hnth). rewrite Hrs, map_length, Hlen in Hrange, Hnth.
    pose proof (one_out _ _ _ B3 Og) as Eu.
    (* Unsqueeze *)
    destruct (HH nu Nu) as (vs & outs & C1 & C2 & C3). rewrite Tu in C2.
    destruct (sl_unsqueeze _ laws _ _ _ _ C2) as (ux & more & ru & -> & -> & Hru).
    assert (Eu' : arg_eval static ef u = Some (Some rg)).
    { rewrite (produced_eval nu ng u Nu); [rewrite Eu; reflexivity|rewrite Iu; left; reflexivity|exact Ng|exact Og]. }
    rewrite Iu in C1. cbn in C1. rewrite Eu' in C1. destruct (args_eval static ef us); [|discriminate].
    injection C1 as <- <-.
    pose proof (one_out _ _ _ C3 Ou) as Ei.
    exists ru. split.
    { rewrite (produced_eval n nu i Hn Hi Nu Ou), Ei. reflexivity. }
    rewrite nth_error_map in Hnth. rewrite Hru, Hv. rewrite <- Ez.
    destruct (nth_error (tshape x) _) as [dd|] eqn:En; [|discriminate]. cbn in Hnth. injection Hnth as <-.
    split; [|destruct (Z.ltb_spec z0 0); lia].
    rewrite (nth_error_nth _ _ _ En). reflexivity.
  Qed.

  Lemma chains_ok n len : In n nodes -> forall l data p d, incl l (ninputs n) ->
    chains scalar nodes len data l = Some (Some (p, d)) ->
    length p = length l /\ (forall d', data = Some d' -> d = data) /\
    forall x m j d', d = Some d' -> In m nodes -> ntype m = "Reshape"%string -> nth_error (ninputs m) 0 = Some j -> aname j = d' ->
      arg_eval static ef j = Some (Some x) -> length (tshape x) = len ->
      exists us, args_eval static ef l = Some (map Some us) /\
        map tdata us = map (fun z => [z]) (map (fun z => Z.of_N (nth (Z.to_nat z) (tshape x) 0)) p) /\
        Forall (fun z => 0 <= z < Z.of_nat len)%Z p.
  Proof.
    intros Hn. induction l as [|i l IH]; intros data p d Hl H; cbn in H.
    - injection H as <- <-. repeat split; auto. intros. exists []. repeat split; constructor.
    - destruct (chain scalar nodes len i) as [[[z d0]|]|] eqn:Ec; try discriminate.
      destruct (match data with None => true | Some d' => String.eqb d' d0 end) eqn:Ed; [|discriminate].
      destruct (chains scalar nodes len (Some d0) l) as [[[p' d'']|]|] eqn:Er; try discriminate.
      injection H as <- <-.
      destruct (IH (Some d0) p' d'' (fun a Ha => Hl a (or_intror Ha)) Er) as (I1 & I2 & I4).
      specialize (I2 d0 eq_refl). subst d''.
      destruct (chain_ok n i len z d0 Hn (Hl i (or_introl eq_refl)) Ec) as (m & j & Hm & Tm & Hj & Ej & Hx).
      split; [cbn; lia|]. split.
      { intros d' E'. subst data. apply String.eqb_eq in Ed. subst. reflexivity. }
      intros x m' j' d' Ed' Hm' Tm' Hj' Ej' Ev Elen. injection Ed' as <-.
      destruct (I4 x m' j' d0 eq_refl Hm' Tm' Hj' Ej' Ev Elen) as (us & U1 & U2 & U3).
      destruct (Hx x) as (u & V1 & V2 & V3).
      { rewrite (onev m m' j j' Hm Tm Hj Hm' Tm' Hj') by congruence. exact Ev. }
      { exact Elen. }
      exists (u :: us). cbn. rewrite V1, U1. split; [reflexivity|]. split; [rewrite V2, U2; reflexivity|]. constructor; assumption.
  Qed.

  Lemma is_perm_ok rank : forall p seen, is_perm rank seen p = true ->
    NoDup p /\ Forall (fun z => (0 <= z < Z.of_nat rank)%Z /\ ~ In z seen) p.
  Proof.
    induction p as [|z p IH]; intros seen H; [split; constructor|]. cbn in H.
    rewrite !andb_true_iff in H. destruct H as [[[H1 H2] H3] H4].
    destruct (IH _ H4) as [I1 I2]. rewrite Forall_forall in I2.
    assert (Hs : ~ In z seen).
    { intros Hz. apply negb_true_iff in H3. rewrite <- not_true_iff_false in H3. apply H3.
      apply existsb_exists. exists z. split; [exact Hz|apply Z.eqb_refl]. }
    split.
    - constructor; [|exact I1]. intros Hz. destruct (I2 z Hz) as [_ Hc]. apply Hc. left; reflexivity.
    - constructor; [split; [lia|exact Hs]|]. apply Forall_forall. intros y Hy. destruct (I2 y Hy) as [J1 J2].
      split; [exact J1|]. intros Hc. apply J2. right; exact Hc.
  Qed.
  Lemma is_perm_Permutation p : is_perm (length p) [] p = true -> Permutation (positions p) (seq 0 (length p)).
  Proof.
    intros H. destruct (is_perm_ok _ _ _ H) as [Hn Hf]. rewrite Forall_forall in Hf.
    apply NoDup_Permutation_bis.
    - unfold positions. clear H. induction Hn as [|z p Hz Hn IH]; cbn; constructor.
      + intros Hc. apply in_map_iff in Hc. destruct Hc as (y & E & Hy). apply Hz.
        assert (z = y); [|subst; exact Hy].
        pose proof (proj1 (Hf y (or_intror Hy))). pose proof (proj1 (Hf z (or_introl eq_refl))). lia.
      + assert (IHf : forall y, In y p -> (0 <= y)%Z) by (intros y Hy; pose proof (proj1 (Hf y (or_intror Hy))); lia).
        clear -IHf Hn. induction Hn as [|z p Hz Hn IH]; cbn; constructor.
        * intros Hc. apply in_map_iff in Hc. destruct Hc as (y & E & Hy). apply Hz.
          assert (z = y); [|subst; exact Hy].
          pose proof (IHf y (or_intror Hy)). pose proof (IHf z (or_introl eq_refl)). lia.
        * apply IH. intros y Hy. apply IHf. right; exact Hy.
    - unfold positions. rewrite map_length, seq_length. lia.
    - intros k Hk. unfold positions in Hk. apply in_map_iff in Hk. destruct Hk as (z & <- & Hz).
      apply in_seq. pose proof (proj1 (Hf z Hz)). lia.
  Qed.

  (** A Reshape with the pattern asks for the permuted shape. *)
  Lemma pattern_ok n p xa : In n nodes -> ntype n = "Reshape"%string -> extract_permute_pattern scalar nodes n = Some (Some p) ->
    nth_error (ninputs n) 0 = Some xa ->
    (Forall (fun z => 0 <= z)%Z p /\ Permutation (positions p) (seq 0 (length p))) /\
    exists sa rest, ninputs n = xa :: sa :: rest /\
    forall x, arg_eval static ef xa = Some (Some x) -> length (tshape x) = length p ->
      exists s, arg_eval static ef sa = Some (Some s) /\ tdata s = map Z.of_N (pick (positions p) (tshape x)).
  Proof.
    intros Hn Tn He Hx. unfold extract_permute_pattern in He.
    destruct (ninputs n) as [|x0 [|sa rest]] eqn:In_; try discriminate. injection Hx as ->.
    destruct (producer nodes (aname sa)) as [nc|] eqn:Pc; [|discriminate].
    destruct (String.eqb_spec (ntype nc) "Concat") as [Tc|]; [|discriminate]. cbn [negb] in He.
    destruct (producer_ok _ _ Pc) as [Nc Oc].
    destruct (chains scalar nodes (length (ninputs nc)) None (ninputs nc)) as [[[p' d]|]|] eqn:Ec; try discriminate.
    destruct d as [d|]; [|discriminate].
    destruct ((String.eqb d (aname xa) && is_perm (length p') [] p')%bool) eqn:E; [|discriminate].
    injection He as ->. apply andb_true_iff in E. destruct E as [E1 E2]. apply String.eqb_eq in E1. subst d.
    split; [split; [apply is_perm_ok in E2; eapply Forall_impl; [|exact (proj2 E2)]; cbn; intros; lia|apply is_perm_Permutation; exact E2]|].
    exists sa, rest. split; [reflexivity|].
    intros x Ex Hlen.
    destruct (chains_ok nc _ Nc _ _ _ _ (incl_refl _) Ec) as (L & _ & Hc).
    destruct (Hc x n xa (aname xa) eq_refl Hn Tn) as (us & U1 & U2 & U3); [rewrite In_; reflexivity|reflexivity|exact Ex|lia|].
    destruct (proj1 (Forall_forall _ _) all_hold nc Nc) as (vs & outs & A1 & A2 & A3).
    rewrite U1 in A1. injection A1 as <-. rewrite Tc in A2.
    destruct (sl_concat _ laws _ _ _ _ A2) as (xs & r & Exs & -> & Hr).
    assert (xs = us).
    { clear -Exs. revert us Exs. induction xs as [|a xs IH]; intros [|b us] H; cbn in H; try discriminate; [reflexivity|].
      injection H as -> H. f_equal. apply IH. exact H. }
    subst xs. exists r. split.
    { rewrite (produced_eval n nc sa Hn); [rewrite (one_out _ _ _ A3 Oc); reflexivity|rewrite In_; right; left; reflexivity|exact Nc|exact Oc]. }
    rewrite (Hr _ U2). unfold pick, positions. rewrite !map_map. reflexivity.
  Qed.

  Lemma reshape_to (az : bool) (s : list N) out l : reshape_of az s (map Z.of_N l) out -> Forall (fun d => 1 <= d) l -> out = l.
  Proof.
    intros (H1 & _ & _ & _ & H) Hl. rewrite map_length in H1. apply nth_error_ext. intros k.
    destruct (nth_error l k) as [d|] eqn:E.
    - destruct (nth_error out k) as [d'|] eqn:E'.
      + assert (1 <= d) by (rewrite Forall_forall in Hl; apply Hl; eapply nth_error_In; exact E).
        specialize (H k (Z.of_N d) d'). rewrite nth_error_map, E in H. specialize (H eq_refl E').
        destruct H as [[_ H]|[[H _]|[[H _]|H]]]; [f_equal; lia|lia|lia|lia].
      + exfalso. apply nth_error_None in E'. assert (k < length l)%nat by (apply nth_error_Some; congruence). lia.
    - apply nth_error_None in E. apply nth_error_None. lia.
  Qed.

  (** The replaced node computes the same value. *)
  Lemma replaced_same n p xa : In n nodes -> ntype n = "Reshape"%string ->
    extract_permute_pattern scalar nodes n = Some (Some p) -> nth_error (ninputs n) 0 = Some xa ->
    (forall v, arg_eval static ef xa = Some (Some v) -> twf v /\ length p = length (tshape v) /\
       Forall (fun d => 1 <= d) (tshape v) /\ in_order (positions p) (tshape v)) ->
    forall vs outs, args_eval static ef (ninputs n) = Some vs ->
      sem "Reshape"%string (nattrs n) (length (noutputs n)) vs = Some outs ->
      exists v, arg_eval static ef xa = Some (Some v) /\
      sem "Transpose"%string [("perm"%string, AInts p)] (length (noutputs n)) [Some v] = Some outs.
  Proof.
    intros Hn Ht He Hx Hgood vs outs Hv Hs.
    destruct (pattern_ok n p xa Hn Ht He Hx) as ((Hnn & Hp) & sa & rest & Ein & Hshape).
    destruct (sl_reshape _ laws _ _ _ _ Hs) as (x & s & r & az & -> & -> & -> & Hd & Hr).
    rewrite Ein in Hv. cbn in Hv. destruct (arg_eval static ef xa) as [v0|] eqn:Ev; [|discriminate].
    destruct (arg_eval static ef sa) as [s0|] eqn:Es; [|discriminate].
    destruct (args_eval static ef rest); [|discriminate]. injection Hv as -> -> ->.
    destruct (Hgood x eq_refl) as (Hw & Hl & Hpos & Ho).
    destruct (Hshape x eq_refl (eq_sym Hl)) as (s' & Es' & Ds). injection Es' as <-.
    rewrite Ds in Hr.
    assert (Hp' : Permutation (positions p) (seq 0 (length (tshape x)))) by (rewrite <- Hl; exact Hp).
    apply reshape_to in Hr.
    2:{ apply Forall_forall. intros d Hd'. rewrite Forall_forall in Hpos. apply Hpos.
        eapply Permutation_in; [apply pick_perm; exact Hp'|exact Hd']. }
    destruct (sl_transpose _ laws p x Hnn Hp' Hw) as (t & Et & Htr).
    exists x. split; [reflexivity|]. rewrite Et. f_equal. f_equal.
    pose proof (transposed_data _ _ _ Htr Hw Ho) as Edata. destruct Htr as (_ & _ & Hts & _).
    destruct t as [ts td], r as [rs rd]. cbn in *. subst. congruence.
  Qed.
End Graph.

Lemma permute_run scalar sem static nodes ef : shape_laws sem -> names_apart nodes -> whole_shapes nodes ->
  single_indices scalar static nodes ef -> one_value_per_name static nodes ef ->
  forall l l' (e : string -> option zt), incl l nodes -> ssa e l ->
    permute_all scalar nodes l = Some l' ->
    Forall (holds sem static ef) nodes ->
    (forall x v, e x = Some v -> ef x = Some v) ->
    (forall n n' p x v, In (n, n') (combine l l') -> ntype n = "Reshape"%string -> ntype n' = "Transpose"%string ->
       nattrs n' = [("perm"%string, AInts p)] -> nth_error (ninputs n) 0 = Some x ->
       arg_eval static ef x = Some (Some v) ->
       twf v /\ length p = length (tshape v) /\ Forall (fun d => 1 <= d) (tshape v) /\ in_order (positions p) (tshape v)) ->
    run sem static e l = Some ef ->
    run sem static e l' = Some ef.
Proof.
  intros laws apart whole single onev. induction l as [|n l IH]; intros l' e Hl Hssa Hp Hh Hm Hgood Hr; cbn in Hp.
  - injection Hp as <-. exact Hr.
  - destruct (permute_node scalar nodes n) as [n'|] eqn:En; [|discriminate].
    destruct (permute_all scalar nodes l) as [r'|] eqn:Er; [|discriminate]. injection Hp as <-.
    cbn in Hr. destruct (node_eval sem static e n) as [e1|] eqn:E1; [|discriminate].
    assert (Hn : In n nodes) by (apply Hl; left; reflexivity).
    destruct (ssa_cons sem static e e1 n l Hssa E1) as (S1 & S2 & S3).
    assert (E1' : node_eval sem static e n' = Some e1).
    { unfold permute_node in En. destruct (String.eqb_spec (ntype n) "Reshape") as [Ht|]; [|injection En as <-; exact E1].
      destruct (extract_permute_pattern scalar nodes n) as [[p|]|] eqn:Ep; [|injection En as <-; exact E1|discriminate].
      destruct (ninputs n) as [|xa rest] eqn:Ein; [discriminate|]. injection En as <-.
      unfold node_eval in E1 |- *. cbn [ninputs ntype nattrs noutputs].
      destruct (args_eval static e (ninputs n)) as [vs|] eqn:Ea; [|discriminate].
      destruct (sem (ntype n) (nattrs n) (length (noutputs n)) vs) as [outs|] eqn:Es; [|discriminate].
      rewrite Ht in Es.
      assert (Ea' := args_eval_mono static (ninputs n) e ef vs Hm Ea).
      destruct (replaced_same scalar sem static nodes ef laws apart whole single onev Hh n p xa Hn Ht Ep)
        with (vs := vs) (outs := outs) as (v & Ev & Et); auto.
      { rewrite Ein. reflexivity. }
      { intros v Ev. apply (Hgood n (mkNode "Transpose" (nname n) [xa] (noutputs n) [("perm"%string, AInts p)]) p xa v); auto.
        - left; reflexivity.
        - rewrite Ein. reflexivity. }
      rewrite Ein in Ea. cbn in Ea. cbn [args_eval].
      destruct (arg_eval static e xa) as [w|] eqn:Ew; [|discriminate].
      assert (Ew' : arg_eval static ef xa = Some w).
      { assert (A := args_eval_mono static [xa] e ef [w] Hm). cbn in A. rewrite Ew in A. specialize (A eq_refl).
        destruct (arg_eval static ef xa); [injection A as ->; reflexivity|discriminate]. }
      rewrite Ev in Ew'. injection Ew' as <-. rewrite Et. exact E1. }
    cbn [run]. rewrite E1'. apply IH; auto.
    + intros a Ha. apply Hl. right; exact Ha.
    + intros x v Hx. eapply (run_mono sem static l e1 ef); [|exact Hr|exact Hx]. intros y Hy. apply (proj2 S3). exact Hy.
    + intros a a' p x v Hin. apply Hgood. right; exact Hin.
Qed.

Lemma pass_run scalar sem static nodes nodes' (e ef : string -> option zt) :
  shape_laws sem -> ssa e nodes -> names_apart nodes -> whole_shapes nodes ->
  run sem static e nodes = Some ef ->
  single_indices scalar static nodes ef -> one_value_per_name static nodes ef ->
  simplify_permute_reshape scalar nodes = Some nodes' ->
  (forall n n' p x v, In (n, n') (combine nodes nodes') -> ntype n = "Reshape"%string -> ntype n' = "Transpose"%string ->
     nattrs n' = [("perm"%string, AInts p)] -> nth_error (ninputs n) 0 = Some x ->
     arg_eval static ef x = Some (Some v) ->
     twf v /\ length p = length (tshape v) /\ Forall (fun d => 1 <= d) (tshape v) /\ in_order (positions p) (tshape v)) ->
  run sem static e nodes' = Some ef.
Proof.
  intros laws Hssa apart whole Hr single onev Hp Hgood.
  apply (permute_run scalar sem static nodes ef laws apart whole single onev nodes nodes' e (incl_refl _) Hssa Hp); auto.
  - exact (run_holds sem static nodes e ef Hssa Hr).
  - intros x v Hx. eapply (run_mono sem static nodes e ef); [|exact Hr|exact Hx]. intros y Hy. apply (proj2 Hssa). exact Hy.
Qed.

(** Everything but the matched Reshape nodes stays. *)
Lemma permute_all_shape scalar nodes : forall l l', permute_all scalar nodes l = Some l' ->
  Forall2 (fun n n' => n' = n \/ (ntype n = "Reshape"%string /\ exists p x rest, ninputs n = x :: rest /\
     Permutation (positions p) (seq 0 (length p)) /\
     n' = mkNode "Transpose" (nname n) [x] (noutputs n) [("perm"%string, AInts p)])) l l'.
Proof.
  induction l as [|n l IH]; intros l' H; cbn in H; [injection H as <-; constructor|].
  destruct (permute_node scalar nodes n) as [n'|] eqn:En; [|discriminate].
  destruct (permute_all scalar nodes l) as [r'|] eqn:Er; [|discriminate]. injection H as <-.
  constructor; [|apply IH; reflexivity].
  unfold permute_node in En. destruct (String.eqb_spec (ntype n) "Reshape") as [Ht|]; [|injection En as <-; left; reflexivity].
  destruct (extract_permute_pattern scalar nodes n) as [[p|]|] eqn:Ep; [|injection En as <-; left; reflexivity|discriminate].
  destruct (ninputs n) as [|xa rest] eqn:Ein; [discriminate|]. injection En as <-. right. split; [exact Ht|].
  exists p, xa, rest. split; [reflexivity|]. split; [|reflexivity].
  unfold extract_permute_pattern in Ep. rewrite Ein in Ep. destruct rest as [|sa rest]; [discriminate|].
  destruct (producer nodes (aname sa)) as [nc|]; [|discriminate].
  destruct (negb _); [discriminate|]. destruct (chains _ _ _ _ _) as [[[p' d]|]|]; try discriminate.
  destruct d as [d|]; [|discriminate]. destruct ((String.eqb d (aname xa) && is_perm (length p') [] p')%bool) eqn:E; [|discriminate].
  injection Ep as ->. apply andb_true_iff in E. apply is_perm_Permutation. tauto.
Qed.

(** * No panic *)
Lemma chain_total scalar nodes len i :
  (forall n, In n nodes -> mem_str (ntype n) ["Unsqueeze"; "Gather"; "Shape"]%string = true -> ninputs n <> []) ->
  (forall n a, In n nodes -> ntype n = "Gather"%string -> get_attr n "axis" = Some a -> exists z, a = AInt z) ->
  chain scalar nodes len i <> None.
Proof.
  intros H1 H2. unfold chain.
  assert (P : forall x n, producer nodes x = Some n -> In n nodes) by (intros x n E; apply producer_ok in E; tauto).
  destruct (producer nodes (aname i)) as [nu|] eqn:Pu; [|discriminate].
  destruct (String.eqb_spec (ntype nu) "Unsqueeze") as [Tu|]; [|discriminate]. cbn [negb].
  destruct (ninputs nu) as [|u us] eqn:Iu; [exfalso; apply (H1 nu (P _ _ Pu)); [rewrite Tu; reflexivity|exact Iu]|].
  destruct (producer nodes (aname u)) as [ng|] eqn:Pg; [|discriminate].
  destruct (String.eqb_spec (ntype ng) "Gather") as [Tg|]; [|discriminate]. cbn [negb].
  assert (G : match nth_error (ninputs ng) 1 with
                    | None => Some None
                    | Some index =>
                        match scalar index with
                        | None => Some None
                        | Some z =>
                            let z' := (if z <? 0 then z + Z.of_nat len else z)%Z in
                            match ninputs ng with
                            | [] => None
                            | g :: _ =>
                                match producer nodes (aname g) with
                                | None => Some None
                                | Some shape =>
                                    if negb (String.eqb (ntype shape) "Shape") then Some None else
                                    match ninputs shape with
                                    | [] => None
                                    | d :: _ => Some (Some (z', aname d))
                                    end
                                end
                            end
                        end
                    end <> None).
  { destruct (nth_error (ninputs ng) 1) as [index|]; [|discriminate]. destruct (scalar index); [|discriminate]. cbn zeta.
    destruct (ninputs ng) as [|g gs] eqn:Ig; [exfalso; apply (H1 ng (P _ _ Pg)); [rewrite Tg; reflexivity|exact Ig]|].
    destruct (producer nodes (aname g)) as [nsh|] eqn:Ps; [|discriminate].
    destruct (String.eqb_spec (ntype nsh) "Shape") as [Ts|]; [|discriminate]. cbn [negb].
    destruct (ninputs nsh) as [|j js] eqn:Is; [exfalso; apply (H1 nsh (P _ _ Ps)); [rewrite Ts; reflexivity|exact Is]|].
    discriminate. }
  destruct (get_attr ng "axis") as [a|] eqn:Ea; [|exact G].
  destruct (H2 ng a (P _ _ Pg) Tg Ea) as [z ->]. destruct z; [exact G|discriminate|discriminate].
Qed.

Lemma pass_total scalar nodes :
  (forall n, In n nodes -> mem_str (ntype n) ["Unsqueeze"; "Gather"; "Shape"]%string = true -> ninputs n <> []) ->
  (forall n a, In n nodes -> ntype n = "Gather"%string -> get_attr n "axis" = Some a -> exists z, a = AInt z) ->
  exists nodes', simplify_permute_reshape scalar nodes = Some nodes'.
Proof.
  intros H1 H2. unfold simplify_permute_reshape.
  assert (Hc : forall len l data, chains scalar nodes len data l <> None).
  { intros len. induction l as [|i l IH]; intros data; cbn; [discriminate|].
    pose proof (chain_total scalar nodes len i H1 H2). destruct (chain scalar nodes len i) as [[[z d]|]|]; [|discriminate|congruence].
    destruct (match data with None => true | Some d' => String.eqb d' d end); [|discriminate].
    specialize (IH (Some d)). destruct (chains scalar nodes len (Some d) l) as [[[p d']|]|]; [discriminate|discriminate|congruence]. }
  assert (H : forall l, exists l', permute_all scalar nodes l = Some l'); [|apply H].
  induction l as [|n l [r' IH]]; cbn; [eauto|]. rewrite IH.
  assert (Hn : permute_node scalar nodes n <> None).
  { unfold permute_node, extract_permute_pattern. destruct (String.eqb (ntype n) "Reshape"); [|discriminate].
    destruct (ninputs n) as [|x [|s r]]; [discriminate|discriminate|].
    destruct (producer nodes (aname s)) as [nc|]; [|discriminate]. destruct (negb _); [discriminate|].
    specialize (Hc (length (ninputs nc)) (ninputs nc) None).
    destruct (chains scalar nodes (length (ninputs nc)) None (ninputs nc)) as [[[p d]|]|]; [|discriminate|congruence].
    destruct d; [|discriminate]. destruct (_ && _)%bool; discriminate. }
  destruct (permute_node scalar nodes n); [eauto|congruence].
Qed.

(** * A meaning of the operators with these laws *)
Definition demo_sem : zsem := fun op attrs k vs =>
  if String.eqb op "Shape" then
    match attrs, vs with
    | [], [Some x] => Some [mkT [N.of_nat (length (tshape x))] (map Z.of_N (tshape x))]
    | _, _ => None
    end
  else if String.eqb op "Gather" then
    match vs with
    | [Some d; Some i] =>
        match tdata i with
        | [z] => let n := Z.of_nat (length (tdata d)) in
                 if ((- n <=? z) && (z <? n))%Z%bool then
                   option_map (fun v => [mkT [] [v]]) (nth_error (tdata d) (Z.to_nat (if z <? 0 then z + n else z)%Z))
                 else None
        | _ => None
        end
    | _ => None
    end
  else if String.eqb op "Unsqueeze" then
    match vs with Some x :: _ => Some [mkT (1 :: tshape x) (tdata x)] | _ => None end
  else if String.eqb op "Concat" then
    option_map (fun xs => [mkT [N.of_nat (length (concat (map tdata xs)))] (concat (map tdata xs))]) (mapo (fun v : option zt => v) vs)
  else if String.eqb op "Reshape" then
    match vs, k with
    | [Some x; Some s], 1%nat =>
        if (forallb (fun v => 0 <? v)%Z (tdata s) && (prodN (map Z.to_N (tdata s)) =? prodN (tshape x)))%bool
        then Some [mkT (map Z.to_N (tdata s)) (tdata x)] else None
    | _, _ => None
    end
  else if String.eqb op "Transpose" then
    match attrs, vs, k with
    | [(_, AInts p)], [Some x], 1%nat =>
        if ((length p =? length (tshape x))%nat && is_perm (length p) [] p)%bool
        then option_map (fun r => [r]) (transpose (positions p) x) else None
    | _, _, _ => None
    end
  else None.

Lemma mapo_id (vs : list (option zt)) xs : mapo (fun v => v) vs = Some xs -> vs = map Some xs.
Proof.
  revert xs. induction vs as [|v vs IH]; intros xs H; cbn in H; [injection H as <-; reflexivity|].
  destruct v as [v|]; [|discriminate]. destruct (mapo (fun v => v) vs); [|discriminate]. injection H as <-.
  cbn. rewrite (IH _ eq_refl). reflexivity.
Qed.

Lemma perm_is_perm p n : Permutation (positions p) (seq 0 n) -> Forall (fun z => 0 <= z)%Z p -> 
  (length p =? n)%nat = true /\ is_perm (length p) [] p = true.
Proof.
  intros Hp Hpos. assert (Hl : length p = n).
  { apply Permutation_length in Hp. unfold positions in Hp. rewrite map_length, seq_length in Hp. exact Hp. }
  split; [apply Nat.eqb_eq; exact Hl|]. rewrite Hl.
  assert (Hn : NoDup (positions p)) by (eapply Permutation_NoDup; [apply Permutation_sym; exact Hp|apply seq_NoDup]).
  assert (Hr : forall z, In z p -> (Z.to_nat z < n)%nat).
  { intros z Hz. eapply perm_lt; [exact Hp|]. apply in_map. exact Hz. }
  assert (G : forall q seen, NoDup (positions q) -> Forall (fun z => 0 <= z)%Z q -> (forall z, In z q -> (Z.to_nat z < n)%nat) ->
     (forall z, In z q -> ~ In z seen) -> is_perm n seen q = true); [|apply G; auto].
  clear. induction q as [|z q IH]; intros seen Hn Hpos Hr Hs; [reflexivity|]. cbn.
  inversion Hn as [|? ? Hz Hq]; subst. inversion Hpos as [|? ? Hz0 Hq0]; subst.
  rewrite !andb_true_iff. repeat split.
  - lia.
  - pose proof (Hr z (or_introl eq_refl)). lia.
  - apply negb_true_iff. apply not_true_iff_false. intros He. apply existsb_exists in He. destruct He as (y & Hy & Ey).
    apply Z.eqb_eq in Ey. subst y. exact (Hs z (or_introl eq_refl) Hy).
  - apply IH; auto.
    + intros y Hy. apply Hr. right; exact Hy.
    + intros y Hy [->|Hc]; [apply Hz; apply in_map; exact Hy|exact (Hs y (or_intror Hy) Hc)].
Qed.

Lemma demo_laws : shape_laws demo_sem.
Proof.
  constructor.
  - intros k vs outs H. cbn in H. destruct vs as [|[x|] [|]]; try discriminate. injection H as <-. eauto.
  - intros attrs k vs outs H _. cbn in H. destruct vs as [|[d|] [|[i|] [|]]]; try discriminate.
    destruct (tdata i) as [|z [|]] eqn:Ei; try discriminate.
    destruct ((- Z.of_nat (length (tdata d)) <=? z) && (z <? Z.of_nat (length (tdata d))))%Z%bool eqn:Eb; [|discriminate].
    destruct (nth_error (tdata d) _) as [v|] eqn:En; [|discriminate]. injection H as <-.
    exists d, i, (mkT [] [v]). repeat split; auto. intros z' Ez. rewrite Ei in Ez. injection Ez as <-.
    exists v. split; [reflexivity|]. cbn zeta. split; [lia|exact En].
  - intros attrs k vs outs H. cbn in H. destruct vs as [|[x|] more]; try discriminate. injection H as <-. eauto 6.
  - intros attrs k vs outs H. cbn in H. destruct (mapo (fun v : option zt => v) vs) as [xs|] eqn:E; [|discriminate]. injection H as <-.
    exists xs, (mkT [N.of_nat (length (concat (map tdata xs)))] (concat (map tdata xs))).
    split; [apply mapo_id; exact E|]. split; [reflexivity|]. intros l El. cbn. rewrite El. clear.
    induction l; cbn; congruence.
  - intros attrs k vs outs H. cbn in H. destruct vs as [|[x|] [|[s|] [|]]]; try discriminate.
    destruct k as [|[|k]]; try discriminate.
    destruct (forallb _ (tdata s) && _)%bool eqn:E; [|discriminate]. injection H as <-.
    apply andb_true_iff in E. destruct E as [E1 E2]. apply N.eqb_eq in E2. rewrite forallb_forall in E1.
    exists x, s, (mkT (map Z.to_N (tdata s)) (tdata x)), false. repeat split; auto; cbn.
    + apply map_length.
    + intros i j Hi _. apply nth_error_In, E1 in Hi. lia.
    + discriminate.
    + intros i v d Hv Hd. left. rewrite nth_error_map, Hv in Hd. cbn in Hd. injection Hd as <-.
      apply nth_error_In, E1 in Hv. lia.
  - intros p x Hpos Hp Hw. cbn. destruct (perm_is_perm p _ Hp Hpos) as [-> ->]. cbn [andb].
    destruct (transpose_ok (positions p) x Hp Hw) as (r & -> & Hr). exists r. auto.
Qed.
