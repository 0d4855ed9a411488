(** Lemmas about the code of TopK, OneHot and Range. *)
From Coq Require Import Lia Lra ZifyBool ZifyNat ZifyN.
From Verif Require Import Tensor_Proofs ShapeOps_Proofs RankOps_Proofs Lines_Proofs Lines_Nodes.
From Verif Require Export Pick_Model.
From Verif Require Import ShapeOps_Spec.
Import Pick_Spec Lines_Spec Tensor_Spec.
Local Open Scope N_scope.

(** ** TopK *)
Lemma mapo_all {A B} (f : A -> option B) l : (forall x, In x l -> exists y, f x = Some y) -> exists m, mapo f l = Some m.
Proof.
  induction l as [|x l IH]; intros H; [exists []; reflexivity|]. destruct (H x (or_introl eq_refl)) as [y Hy]. destruct IH as [m Hm]; [intros; apply H; right; assumption|].
  exists (y :: m). cbn [mapo]. rewrite Hy, Hm. reflexivity.
Qed.
Lemma mapo_forall2 {A B} (f : A -> option B) l m : mapo f l = Some m -> Forall2 (fun x y => f x = Some y) l m.
Proof.
  revert m. induction l as [|x l IH]; intros m H; cbn [mapo] in H; [injection H as <-; constructor|].
  destruct (f x) eqn:E; [|discriminate]. destruct (mapo f l) eqn:E2; [|discriminate]. injection H as <-. constructor; auto.
Qed.
Lemma mapo_firstn {A B} (f : A -> option B) : forall k l m, mapo f l = Some m -> mapo f (firstn k l) = Some (firstn k m).
Proof.
  induction k as [|k IH]; intros l m H; [reflexivity|]. destruct l as [|x l]; cbn [mapo] in H; [injection H as <-; reflexivity|].
  destruct (f x) eqn:E; [|discriminate]. destruct (mapo f l) eqn:E2; [|discriminate]. injection H as <-. cbn [firstn mapo]. rewrite E, (IH _ _ E2). reflexivity.
Qed.
Lemma mapo_seq {A} (l : list A) : forall p, mapo (nth_error (p ++ l)) (seq (length p) (length l)) = Some l.
Proof.
  induction l as [|x l IH]; intros p; [reflexivity|]. cbn [length seq mapo]. rewrite nth_error_app2, Nat.sub_diag by lia. cbn [nth_error].
  specialize (IH (p ++ [x])). rewrite app_length, <- app_assoc in IH. cbn [length app] in IH. replace (length p + 1)%nat with (S (length p)) in IH by lia. rewrite IH. reflexivity.
Qed.
Lemma mapo_perm {A B} (f : A -> option B) l1 l2 : Permutation l1 l2 -> forall m2, mapo f l2 = Some m2 -> exists m1, mapo f l1 = Some m1 /\ Permutation m1 m2.
Proof.
  induction 1 as [|x l l' _ IH|x y l|l l' l'' _ IH1 _ IH2]; intros m2 H.
  - exists m2. split; [exact H|apply Permutation_refl].
  - cbn [mapo] in *. destruct (f x); [|discriminate]. destruct (mapo f l') as [m|] eqn:E; [|discriminate]. injection H as <-.
    destruct (IH m eq_refl) as (m1 & -> & Hp). eauto.
  - cbn [mapo] in *. destruct (f x) as [a|]; [|discriminate]. destruct (f y) as [b|]; [|destruct (mapo f l); discriminate]. destruct (mapo f l) as [m|]; [|discriminate]. injection H as <-.
    exists (b :: a :: m). split; [reflexivity|apply perm_swap].
  - destruct (IH2 m2 H) as (m' & H' & P'). destruct (IH1 m' H') as (m1 & H1 & P1). exists m1. split; [exact H1|]. eapply Permutation_trans; eauto.
Qed.

Section Top.
  Context {T : Type} (le : T -> T -> bool) (sort : list T -> list nat).
  Hypothesis Hsort : sorts le sort.
  Lemma sort_length l : length (sort l) = length l.
  Proof. destruct (Hsort l) as [Hp _]. rewrite (Permutation_length Hp), seq_length. reflexivity. Qed.
  Lemma sort_values l : exists s, mapo (nth_error l) (sort l) = Some s /\ Permutation s l /\ StronglySorted (fun v w => le w v = true) s.
  Proof.
    destruct (Hsort l) as [Hp Hs]. destruct (mapo_perm (nth_error l) _ _ Hp l (mapo_seq l [])) as (s & Es & Ps). exists s. split; [exact Es|]. split; [exact Ps|].
    clear Hp Ps. revert s Es. induction Hs as [|i js Hs IH Hall]; intros s Es; cbn [mapo] in Es; [injection Es as <-; constructor|].
    destruct (nth_error l i) as [v|] eqn:Ei; [|discriminate]. destruct (mapo (nth_error l) js) as [m|] eqn:Em; [|discriminate]. injection Es as <-.
    constructor; [apply IH; reflexivity|]. apply mapo_forall2 in Em. clear - Em Hall Ei. induction Em as [|j w js m Hj Hm IH]; [constructor|].
    inversion Hall as [|? ? H1 H2]; subst. constructor; [|apply IH; exact H2]. destruct H1 as (v' & w' & E1 & E2 & E3). congruence.
  Qed.
  Lemma top_line_ok k l : N.of_nat (length l) >= k ->
    exists vs js, top_line sort k l = Some vs /\ top_index sort k l = Some js /\ length vs = N.to_nat k /\ length js = N.to_nat k /\
      top_values le (N.to_nat k) l vs /\ places l vs js /\
      ((stable le sort \/ no_ties le l) -> first_places le (N.to_nat k) l js).
  Proof.
    intros Hk. unfold top_line, top_index. replace (N.of_nat (length l) <? k) with false by lia.
    destruct (sort_values l) as (s & Es & Ps & Ss). destruct (Hsort l) as [Hp Hs]. pose proof (sort_length l) as Lt.
    exists (firstn (N.to_nat k) s), (map Z.of_nat (firstn (N.to_nat k) (sort l))).
    pose proof (Permutation_length Ps) as Ls.
    split; [apply mapo_firstn; exact Es|]. split; [reflexivity|]. split; [rewrite firstn_length; lia|]. split; [rewrite map_length, firstn_length; lia|]. split; [|split].
    - split; [lia|]. exists s. auto.
    - split.
      + apply FinFun.Injective_map_NoDup; [intros a b; lia|].
        assert (ND : NoDup (sort l)) by (eapply Permutation_NoDup; [apply Permutation_sym; exact Hp|apply seq_NoDup]).
        clear - ND. revert k. intros k. generalize (N.to_nat k). clear k. induction ND as [|x L Hx ND IH]; intros [|k]; cbn; try constructor; [|apply IH].
        intros H. apply Hx. clear - H. revert k H. induction L as [|y L IH]; intros [|k]; cbn; try tauto. intros [H|H]; [left; exact H|right; eauto].
      + pose proof (mapo_forall2 _ _ _ (mapo_firstn (nth_error l) (N.to_nat k) _ _ Es)) as F. induction F as [|j v js vs Hj F IH]; cbn [map]; constructor; [|exact IH].
        split; [lia|]. rewrite Nat2Z.id. exact Hj.
    - intros Hst. exists (sort l). split; [exact Hp|]. split; [|reflexivity].
      assert (ND : NoDup (sort l)) by (eapply Permutation_NoDup; [apply Permutation_sym; exact Hp|apply seq_NoDup]).
      assert (SS : forall L, NoDup L -> StronglySorted (fun i j => exists v w, nth_error l i = Some v /\ nth_error l j = Some w /\ le w v = true) L ->
        ((StronglySorted (fun i j => forall v w, nth_error l i = Some v -> nth_error l j = Some w -> le v w = true -> (i < j)%nat) L) \/ no_ties le l) -> StronglySorted (comes_before le l) L).
      { clear. intros L ND HS HH. induction HS as [|i js HS IH Hall]; constructor.
        - inversion ND; subst. apply IH; [assumption|]. destruct HH as [HH|HH]; [left|right; exact HH]. inversion HH; assumption.
        - inversion ND as [|? ? Hi ND']; subst. apply Forall_forall. intros j Hj. rewrite Forall_forall in Hall. destruct (Hall j Hj) as (v & w & Ev & Ew & Hle).
          exists v, w. split; [exact Ev|]. split; [exact Ew|]. destruct HH as [HH|HH].
          + inversion HH as [|? ? _ HH']; subst. rewrite Forall_forall in HH'. specialize (HH' j Hj v w Ev Ew). destruct (le v w); [right; auto|left; reflexivity].
          + left. destruct (HH i j v w Ev Ew) as [H|H]; [intros ->; contradiction|exact H|congruence]. }
      apply SS; [exact ND|exact Hs|]. destruct Hst as [H|H]; [left; apply H|right; exact H].
  Qed.

  Lemma b_topk_ok k axis (x : tensor T) P d Q : twf x -> tshape x = P ++ d :: Q -> length P = N.to_nat axis -> k <= d ->
    exists v i, b_topk sort k axis x = Some (v, i) /\ twf v /\ twf i /\ tshape v = P ++ k :: Q /\ tshape i = P ++ k :: Q /\
      forall p q, valid_idx P p -> valid_idx Q q -> exists l vs js, line x d p q = Some l /\ line v k p q = Some vs /\ line i k p q = Some js /\
        top_values le (N.to_nat k) l vs /\ places l vs js /\ ((stable le sort \/ no_ties le l) -> first_places le (N.to_nat k) l js).
  Proof.
    intros W E La Hk.
    destruct (b_lines_ok (top_line sort k) (fun _ => k) axis x P d Q W E La) as (v & Hv & Wv & Sv & Lv).
    { intros l Ll. destruct (top_line_ok k l ltac:(lia)) as (vs & js & H1 & _ & H3 & _). eauto. }
    destruct (b_lines_ok (top_index sort k) (fun _ => k) axis x P d Q W E La) as (i & Hi & Wi & Si & Li).
    { intros l Ll. destruct (top_line_ok k l ltac:(lia)) as (vs & js & _ & H2 & _ & H4 & _). eauto. }
    exists v, i. unfold b_topk. rewrite Hv. cbn [obind]. rewrite Hi. cbn [obind]. repeat split; try assumption.
    intros p q Hp Hq. destruct (Lv p q Hp Hq) as (l & vs & H1 & H2 & H3). destruct (Li p q Hp Hq) as (l' & js & H1' & H2' & H3').
    assert (l' = l) by congruence. subst l'.
    destruct (line_some x P d Q p q W E Hp Hq) as (l' & Hl' & Ll'). assert (l' = l) by congruence. subst l'.
    destruct (top_line_ok k l ltac:(lia)) as (vs' & js' & G1 & G2 & _ & _ & G). assert (vs' = vs) by congruence. assert (js' = js) by congruence. subst vs' js'.
    exists l, vs, js. repeat split; try assumption; apply G.
  Qed.
End Top.

(** Two sorts: by insertion, equal elements kept in order or not. *)
Section Insertion.
  Context {T : Type} (le : T -> T -> bool).
  Hypothesis total : forall a b, le a b = true \/ le b a = true.
  Hypothesis trans : forall a b c, le a b = true -> le b c = true -> le a c = true.
  Definition precedes (keep : bool) (l : list T) (i j : nat) : bool :=
    match nth_error l i, nth_error l j with
    | Some v, Some w => if keep then le w v else negb (le v w)
    | _, _ => true
    end.
  Fixpoint insert (keep : bool) (l : list T) (i : nat) (js : list nat) : list nat :=
    match js with [] => [i] | j :: r => if precedes keep l i j then i :: j :: r else j :: insert keep l i r end.
  Definition insertion (keep : bool) (l : list T) : list nat := fold_right (insert keep l) [] (seq 0 (length l)).
  Lemma insert_perm keep l i js : Permutation (insert keep l i js) (i :: js).
  Proof.
    induction js as [|j js IH]; [apply Permutation_refl|]. cbn [insert]. destruct (precedes keep l i j); [apply Permutation_refl|].
    eapply Permutation_trans; [apply perm_skip, IH|apply perm_swap].
  Qed.
  Let desc (l : list T) (i j : nat) := exists v w, nth_error l i = Some v /\ nth_error l j = Some w /\ le w v = true.
  Lemma insert_sorted keep l i js : (i < length l)%nat -> Forall (fun j => (j < length l)%nat) js ->
    StronglySorted (desc l) js -> StronglySorted (desc l) (insert keep l i js).
  Proof.
    intros Hi Hj HS. destruct (nth_error l i) as [v|] eqn:Ev; [|apply nth_error_None in Ev; lia].
    induction HS as [|j js HS IH Hall]; cbn [insert]; [repeat constructor|]. inversion Hj as [|? ? Hj0 Hjs]; subst.
    destruct (nth_error l j) as [w|] eqn:Ew; [|apply nth_error_None in Ew; lia].
    assert (K : precedes keep l i j = true -> le w v = true).
    { unfold precedes. rewrite Ev, Ew. destruct keep; [auto|]. destruct (total v w) as [H|H]; [rewrite H; discriminate|auto]. }
    assert (K' : precedes keep l i j = false -> le v w = true).
    { unfold precedes. rewrite Ev, Ew. destruct keep; [|destruct (le v w); cbn; congruence]. destruct (total v w) as [H|H]; [auto|congruence]. }
    destruct (precedes keep l i j).
    - constructor; [constructor; assumption|]. constructor; [exists v, w; auto|]. eapply Forall_impl; [|exact Hall]. intros k (w' & u & E1 & E2 & E3). exists v, u. rewrite E1 in Ew. injection Ew as ->. eauto.
    - constructor; [apply IH; exact Hjs|]. eapply Permutation_Forall; [apply Permutation_sym, insert_perm|]. constructor; [exists w, v; auto|exact Hall].
  Qed.
  Lemma insertion_from keep l : forall s, Forall (fun j => (j < length l)%nat) s ->
    Permutation (fold_right (insert keep l) [] s) s /\ StronglySorted (desc l) (fold_right (insert keep l) [] s).
  Proof.
    induction s as [|i s IH]; intros Hs; cbn [fold_right]; [split; constructor|]. inversion Hs; subst. destruct IH as [IH1 IH2]; [assumption|]. split.
    - eapply Permutation_trans; [apply insert_perm|apply perm_skip, IH1].
    - apply insert_sorted; [assumption| |exact IH2]. eapply Permutation_Forall; [apply Permutation_sym, IH1|assumption].
  Qed.
  Lemma insertion_sorts keep : sorts le (insertion keep).
  Proof. intros l. apply insertion_from. apply Forall_forall. intros j Hj. apply in_seq in Hj. lia. Qed.
  Let keeps_order (l : list T) (i j : nat) := forall v w, nth_error l i = Some v -> nth_error l j = Some w -> le v w = true -> (i < j)%nat.
  Lemma insert_stable l i js : (i < length l)%nat -> Forall (fun j => (i < j < length l)%nat) js -> StronglySorted (desc l) js ->
    StronglySorted (keeps_order l) js -> StronglySorted (keeps_order l) (insert true l i js).
  Proof.
    intros Hi Hj HD HS. destruct (nth_error l i) as [v|] eqn:Ev; [|apply nth_error_None in Ev; lia].
    induction HS as [|j js HS IH Hall]; cbn [insert]; [repeat constructor|]. inversion Hj as [|? ? Hj0 Hjs]; subst. inversion HD as [|? ? HD1 HD2]; subst.
    destruct (precedes true l i j) eqn:Ep.
    - constructor; [constructor; assumption|]. eapply Forall_impl; [|exact Hj]. intros k Hk v' w' _ _ _. cbv beta in Hk. destruct Hk as [Hk _]. exact Hk.
    - constructor; [apply IH; assumption|]. eapply Permutation_Forall; [apply Permutation_sym, insert_perm|]. constructor; [|exact Hall].
      intros w v' Ew Ev' Hle. exfalso. unfold precedes in Ep. rewrite Ev' , Ew in Ep. congruence.
  Qed.
  Lemma insertion_stable : stable le (insertion true).
  Proof.
    intros l. unfold insertion. assert (H : forall n k, (k + n = length l)%nat -> StronglySorted (keeps_order l) (fold_right (insert true l) [] (seq k n))).
    { induction n as [|n IH]; intros k Hk; cbn [seq fold_right]; [constructor|].
      destruct (insertion_from true l (seq (S k) n)) as [P1 P2]; [apply Forall_forall; intros j Hj; apply in_seq in Hj; lia|].
      apply insert_stable; [lia| |exact P2|apply IH; lia]. eapply Permutation_Forall; [apply Permutation_sym, P1|]. apply Forall_forall. intros j Hj. apply in_seq in Hj. lia. }
    apply H. reflexivity.
  Qed.
End Insertion.

(** ** OneHot *)
Lemma Int_part_IZR z : Int_part (IZR z) = z.
Proof.
  destruct (base_Int_part (IZR z)) as [H1 H2]. apply Z.le_antisymm; [apply le_IZR; exact H1|].
  assert (IZR z - 1 < IZR (Int_part (IZR z)))%R by lra. rewrite <- (minus_IZR z 1) in H. apply lt_IZR in H. lia.
Qed.
Lemma Rtrunc_IZR z : Rtrunc (IZR z) = z.
Proof. unfold Rtrunc. destruct (Rle_dec 0 (IZR z)); [apply Int_part_IZR|]. rewrite <- opp_IZR, Int_part_IZR. lia. Qed.
Lemma hot_index_IZR depth i : hot_index depth (IZR i) = class_of depth i.
Proof.
  unfold hot_index, class_of. rewrite Rtrunc_IZR. destruct (Rlt_dec (IZR i) 0) as [H|H].
  - apply lt_IZR in H. destruct (Rlt_dec 0 (IZR i)) as [H'|H']; [apply lt_IZR in H'; lia|]. replace (i <? 0)%Z with true by lia. lia.
  - assert (~ (i < 0)%Z) by (intros C; apply H; apply IZR_lt; exact C). replace (i <? 0)%Z with false by lia.
    destruct (Rlt_dec 0 (IZR i)) as [H'|H']; [lia|]. assert (~ (0 < i)%Z) by (intros C; apply H'; apply IZR_lt; exact C). lia.
Qed.

Lemma valid_app P Q p q : valid_idx P p -> valid_idx Q q -> valid_idx (P ++ Q) (p ++ q).
Proof. apply Forall2_app. Qed.
Lemma offset_insert P Q p q : length p = length P -> offset (P ++ 1 :: Q) (p ++ 0 :: q) = offset (P ++ Q) (p ++ q).
Proof.
  revert p. induction P as [|d P IH]; intros [|i p] H; cbn in H; try lia.
  - cbn [app offset]. lia.
  - cbn [app offset]. rewrite IH by lia. f_equal. f_equal. clear. induction P as [|x P IHP]; cbn [app prodN]; [lia|rewrite IHP; reflexivity].
Qed.
Lemma prod_insert P Q d : prodN (P ++ d :: Q) = d * prodN (P ++ Q).
Proof. induction P as [|x P IH]; cbn [app prodN]; [reflexivity|]. rewrite IH. lia. Qed.

Lemma one_hot_fill_ok int depth on off axis (x : tensor Z) (A : nat) :
  twf x -> (- Z.of_nat (S (length (tshape x))) <= axis <= Z.of_nat (length (tshape x)))%Z -> A = position (S (length (tshape x))) axis ->
  (forall i, In i (tdata x) -> (- Z.of_N depth <= i < Z.of_N depth)%Z) ->
  exists z, b_one_hot_fill int depth on off axis (mkT (tshape x) (map IZR (tdata x))) = Some z /\ 
    twf z /\ (A <= length (tshape x))%nat /\ tshape z = firstn A (tshape x) ++ depth :: skipn A (tshape x) /\
    forall p q k, valid_idx (firstn A (tshape x)) p -> valid_idx (skipn A (tshape x)) q -> k < depth ->
      exists i, get x (p ++ q) = Some i /\ get z (p ++ k :: q) = Some (if Z.eqb (class_of depth i) (Z.of_N k) then fill_value int on else fill_value int off).
Proof.
  intros W Ha EA Hix. unfold b_one_hot_fill. cbn [tshape tdata]. set (r := length (tshape x)) in *. set (axis' := (if (axis <? 0) then axis + Z.of_nat r + 1 else axis)%Z).
  assert (Ea : axis' = Z.of_nat A).
  { subst A axis'. unfold position. destruct (Z.ltb_spec axis 0).
    - rewrite <- (Z.mod_unique axis (Z.of_nat (S r)) (-1) (axis + Z.of_nat r + 1)); lia.
    - rewrite Z.mod_small by lia. lia. }
  assert (LA : (A <= r)%nat). { subst A. unfold position. pose proof (Z.mod_pos_bound axis (Z.of_nat (S r))). lia. }
  replace ((axis' <? 0) || (Z.of_nat r <? axis'))%Z with false by lia.
  replace (Z.to_nat axis') with A by lia. set (P := firstn A (tshape x)). set (Q := skipn A (tshape x)).
  assert (EPQ : tshape x = P ++ Q) by (symmetry; apply firstn_skipn).
  assert (LP : length P = A) by (unfold P; rewrite firstn_length; fold r; lia).
  rewrite map_map. set (ix := mkT (P ++ 1 :: Q) _). set (s := P ++ depth :: Q). set (von := fill_value int on). set (voff := fill_value int off).
  assert (Wi : twf ix). { unfold twf, ix. cbn [tdata tshape]. rewrite map_length, prod_insert, <- EPQ, W. f_equal. lia. }
  assert (Gi : forall p q, valid_idx P p -> valid_idx Q q -> exists i, get x (p ++ q) = Some i /\ get ix (p ++ 0 :: q) = Some (class_of depth i) /\ (0 <= class_of depth i < Z.of_N depth)%Z).
  { intros p q Hp Hq. pose proof (valid_len _ _ Hp) as Lp. destruct (get_valid x (p ++ q) W) as (i & Gi & _); [rewrite EPQ; apply valid_app; assumption|].
    exists i. split; [exact Gi|]. split.
    - unfold get, ix. cbn [tshape tdata]. rewrite offset_insert by exact Lp. unfold get in Gi. rewrite EPQ in Gi. rewrite nth_error_map, Gi. cbn [option_map]. rewrite hot_index_IZR. reflexivity.
    - unfold get in Gi. apply nth_error_In in Gi. specialize (Hix i Gi). unfold class_of. destruct (Z.ltb_spec i 0); lia. }
  unfold b_scatter.
  assert (Sb : same_but (Z.to_N axis') s (tshape ix) = true). { unfold s, ix. cbn [tshape]. apply same_but_ok. lia. }
  change (P ++ 1 :: Q) with (tshape ix). change (tshape (b_fill s voff)) with s. change (tshape (b_fill (tshape ix) (von - voff)%R)) with (tshape ix). rewrite Sb.
  destruct (list_eq_dec N.eq_dec (tshape ix) (tshape ix)) as [_|C]; [|exfalso; apply C; reflexivity].
  cbn [andb]. 
  destruct (fill_get (tshape ix) (von - voff)%R) as [Wu Gu]. destruct (fill_get s voff) as [Wf Gf].
  set (target := b_target (Z.to_N axis') ix s).
  assert (Tg : forall p q, valid_idx P p -> valid_idx Q q -> exists i, get x (p ++ q) = Some i /\ target (p ++ 0 :: q) = Some (p ++ Z.to_N (class_of depth i) :: q) /\ Z.to_N (class_of depth i) < depth /\ (0 <= class_of depth i)%Z).
  { intros p q Hp Hq. destruct (Gi p q Hp Hq) as (i & G1 & G2 & G3). exists i. split; [exact G1|]. split; [|lia]. unfold target, b_target. rewrite G2.
    pose proof (valid_len _ _ Hp) as Lp. replace (N.to_nat (Z.to_N axis')) with A by lia. unfold s. rewrite nth_error_app2, LP, Nat.sub_diag by lia. cbn [nth_error].
    replace (_ && _)%bool with true by lia. destruct (parts p q 0 A ltac:(congruence)) as (-> & -> & _). reflexivity. }
  destruct (scatter_fold Rplus target (b_fill (tshape ix) (von - voff)%R) s (indices (tshape ix)) (b_fill s voff) Wf eq_refl) as (z & Hz & Wz & Sz & Gz).
  { intros j Hj. apply indices_In in Hj. unfold ix in Hj. cbn [tshape] in Hj. pose proof Hj as Hj'. apply valid_split in Hj. destruct Hj as (p & k & q & -> & Hp & Hk & Hq). assert (k = 0) by lia. subst k.
    destruct (Tg p q Hp Hq) as (i & _ & T1 & T2 & _). eexists _, (von - voff)%R. split; [exact T1|]. split; [apply valid_cons_mid; assumption|]. apply Gu. exact Hj'. }
  exists z. split; [exact Hz|]. split; [exact Wz|]. split; [exact LA|]. split; [exact Sz|].
  intros p q k Hp Hq Hk. destruct (Tg p q Hp Hq) as (i & G1 & T1 & T2 & T3). exists i. split; [exact G1|].
  assert (Vt : valid_idx s (p ++ k :: q)) by (apply valid_cons_mid; assumption). rewrite Gz by exact Vt. rewrite Gf by exact Vt. cbn [option_map]. f_equal.
  assert (V0 : valid_idx (tshape ix) (p ++ 0 :: q)) by (unfold ix; cbn [tshape]; apply valid_cons_mid; [assumption|lia|assumption]).
  unfold hits. rewrite (flat_map_one _ _ (p ++ 0 :: q)).
  - rewrite T1, (Gu _ V0). destruct (list_eq_dec N.eq_dec (p ++ Z.to_N (class_of depth i) :: q) (p ++ k :: q)) as [E|E].
    + apply app_inv_head in E. injection E as E. replace (Z.eqb _ _) with true by lia. cbn [fold_left]. lra.
    + destruct (Z.eqb_spec (class_of depth i) (Z.of_N k)) as [E2|E2]; [|reflexivity]. exfalso. apply E. rewrite E2, N2Z.id. reflexivity.
  - apply indices_NoDup.
  - apply indices_In. exact V0.
  - intros j Hj Hne. apply indices_In in Hj. unfold ix in Hj. cbn [tshape] in Hj. pose proof Hj as Hj'. apply valid_split in Hj. destruct Hj as (p' & k' & q' & -> & Hp' & Hk' & Hq'). assert (k' = 0) by lia. subst k'.
    destruct (Tg p' q' Hp' Hq') as (i' & _ & T1' & _ & _). rewrite T1'. rewrite (Gu _ Hj').
    destruct (list_eq_dec N.eq_dec (p' ++ Z.to_N (class_of depth i') :: q') (p ++ k :: q)) as [E|E]; [|reflexivity]. exfalso. apply Hne.
    pose proof (valid_len _ _ Hp). pose proof (valid_len _ _ Hp'). destruct (parts p' q' (Z.to_N (class_of depth i')) A ltac:(congruence)) as (F1 & F2 & _). destruct (parts p q k A ltac:(congruence)) as (F3 & F4 & _).
    rewrite E in F1, F2. congruence.
Qed.

(** ** Range *)
Lemma steps_ok limit step : (0 < step)%Z -> forall fuel cur, (limit - cur <= Z.of_nat fuel)%Z ->
  steps fuel cur limit step = map (fun i => (cur + Z.of_nat i * step)%Z) (seq 0 (Z.to_nat (range_size cur limit step))).
Proof.
  intros Hs. induction fuel as [|f IH]; intros cur Hf; cbn [steps]; unfold range_size in *.
  - assert (0 <= (cur - limit) / step)%Z by (apply Z.div_pos; lia). replace (Z.to_nat _) with 0%nat by lia. reflexivity.
  - destruct (Z.ltb_spec cur limit) as [H|H].
    + rewrite IH by lia. replace (cur + step - limit)%Z with ((cur - limit) + 1 * step)%Z by lia. rewrite Z.div_add by lia.
      assert ((cur - limit) / step < 0)%Z by (apply Z.div_lt_upper_bound; lia). set (m := ((cur - limit) / step)%Z) in *.
      replace (Z.to_nat (Z.max 0 (- m))) with (S (Z.to_nat (Z.max 0 (- (m + 1))))) by lia. cbn [seq map]. f_equal; [lia|].
      rewrite <- seq_shift, map_map. apply map_ext. intros i. lia.
    + assert (0 <= (cur - limit) / step)%Z by (apply Z.div_pos; lia). replace (Z.to_nat _) with 0%nat by lia. reflexivity.
Qed.
Lemma b_arange_ok start limit delta : (0 < delta)%Z -> b_arange start limit (Z.to_N delta) = Some (range_result start limit delta).
Proof.
  intros Hd. unfold b_arange. replace (Z.to_N delta =? 0) with false by lia. rewrite Z2N.id by lia. rewrite steps_ok by lia. cbv zeta.
  unfold range_result. cbv zeta. rewrite map_length, seq_length. reflexivity.
Qed.
