(** The code of GatherElements and ScatterElements. *)
From Coq Require Import Lia ZifyBool ZifyNat ZifyN.
From Verif Require Import Tensor_Proofs ShapeOps_Proofs Index_Proofs Fold_Proofs TensorRun_Model Lines_Proofs.
From Verif Require Export Elements_Model.
From Verif Require Import ShapeOps_Spec.
Import Elements_Spec Index_Spec Lines_Spec Tensor_Spec.
Local Open Scope N_scope.

(** ** Places *)
Lemma one_index_lt d i k : one_index d i = Some k -> k < d.
Proof. intros H. apply one_index_wrap in H. apply H. Qed.
Lemma named_valid s a ix j t : indices_fit s a ix -> valid_idx (tshape ix) j -> named_place s a ix j = Some t -> valid_idx s t.
Proof.
  intros (_ & L & La & Hle & _) Hj H. unfold named_place in H. destruct (get ix j) as [i|]; [|discriminate]. destruct (nth_error s a) as [d|] eqn:Ed; [|discriminate].
  destruct (one_index d i) as [k|] eqn:Ek; [|discriminate]. cbn [option_map] in H. assert (Et : t = firstn a j ++ k :: skipn (S a) j) by congruence. subst t. clear H. apply one_index_lt in Ek.
  pose proof (Lines_Proofs.valid_len _ _ Hj) as Lj.
  destruct (nth_error_split _ _ Ed) as (P & Q & -> & LP).
  destruct (nth_error (tshape ix) a) as [m|] eqn:Em; [|apply nth_error_None in Em; lia].
  destruct (nth_error_split _ _ Em) as (P' & Q' & E' & LP'). rewrite E' in Hj. apply Lines_Proofs.valid_split in Hj. destruct Hj as (p & c & q & -> & Hp & _ & Hq).
  pose proof (Lines_Proofs.valid_len _ _ Hp) as Lp. destruct (parts p q c a ltac:(congruence)) as (-> & -> & _).
  assert (HP : forall i m d, nth_error P' i = Some m -> nth_error P i = Some d -> m <= d).
  { intros i0 m0 d0 H1 H2. assert (i0 < length P')%nat by (apply nth_error_Some; congruence). apply (Hle i0); [lia|rewrite E', nth_error_app1 by assumption; exact H1|rewrite nth_error_app1 by lia; exact H2]. }
  assert (HQ : forall i m d, nth_error Q' i = Some m -> nth_error Q i = Some d -> m <= d).
  { intros i0 m0 d0 H1 H2. apply (Hle (S a + i0)%nat); [lia|rewrite E', nth_error_app2 by lia; replace (S a + i0 - length P')%nat with (S i0) by lia; exact H1|rewrite nth_error_app2 by lia; replace (S a + i0 - length P)%nat with (S i0) by lia; exact H2]. }
  assert (LQ : length Q' = length Q). { rewrite E', !app_length in L. cbn [length] in L. lia. }
  assert (Up : forall A B x, length A = length B -> (forall i m d, nth_error A i = Some m -> nth_error B i = Some d -> m <= d) -> valid_idx A x -> valid_idx B x).
  { clear. induction A as [|m A IH]; intros [|d B] x L H Hx; try discriminate L; inversion Hx; subst; constructor.
    - specialize (H 0%nat m d eq_refl eq_refl). lia.
    - apply IH; [cbn in L; lia|intros i; apply (H (S i))|assumption]. }
  apply valid_cons_mid; [apply (Up P'); [congruence|exact HP|exact Hp]|exact Ek|apply (Up Q'); assumption].
Qed.
(** Where the indices are not negative, Burn goes to the same place. *)
Lemma plain_target s a ix j : indices_fit s a ix -> (forall i, In i (tdata ix) -> (0 <= i)%Z) -> valid_idx (tshape ix) j ->
  b_target (N.of_nat a) ix s j = named_place s a ix j.
Proof.
  intros (W & _ & _ & _ & Hn) Hp Hj. destruct (Hn j Hj) as (t & Ht). rewrite Ht. unfold named_place in Ht. unfold b_target. rewrite Nat2N.id.
  destruct (get_valid ix j W Hj) as (i & Gi & Ii). rewrite Gi in *. destruct (nth_error s a) as [d|]; [|discriminate].
  specialize (Hp i Ii). unfold one_index, from_end in Ht. destruct (_ && _)%bool eqn:E in Ht; [|discriminate].
  replace ((0 <=? i)%Z && (i <? Z.of_N d)%Z)%bool with true by lia. cbn [option_map] in Ht. replace (i <? 0)%Z with false in Ht by lia. exact Ht.
Qed.
Lemma plain_same s a ix : indices_fit s a ix -> (forall k, k <> a -> nth_error (tshape ix) k = nth_error s k) -> same_but (N.of_nat a) s (tshape ix) = true.
Proof.
  intros (_ & L & La & _) H. unfold same_but. rewrite Nat2N.id, L, Nat.eqb_refl. replace (a <? length s)%nat with true by lia. cbn [andb].
  assert (E1 : firstn a s = firstn a (tshape ix)).
  { apply nth_error_ext. intros i. destruct (Nat.lt_ge_cases i a) as [Hi|Hi].
    - rewrite !Fold_Proofs.nth_error_firstn by assumption. symmetry. apply H. lia.
    - rewrite (proj2 (nth_error_None _ _)), (proj2 (nth_error_None _ _)); [reflexivity|rewrite firstn_length; lia..]. }
  assert (E2 : skipn (S a) s = skipn (S a) (tshape ix)).
  { apply nth_error_ext. intros i. rewrite !Fold_Proofs.nth_error_skipn. symmetry. apply H. lia. }
  rewrite E1, E2. destruct (list_eq_dec _ _ _); [|contradiction]. destruct (list_eq_dec _ _ _); [reflexivity|contradiction].
Qed.

(** ** Native gather and scatter *)
Lemma gather_at_ok {T} a (x : tensor T) ix : twf x -> indices_fit (tshape x) a ix -> plain_indices (tshape x) a ix ->
  exists z, b_gather_at (N.of_nat a) ix x = Some z /\ gathered a x ix z.
Proof.
  intros W F [Hp Hs]. unfold b_gather_at. rewrite (plain_same _ _ _ F Hs).
  match goal with |- context [tab _ ?h] => set (g := h) end.
  assert (G : forall j, valid_idx (tshape ix) j -> exists t v, named_place (tshape x) a ix j = Some t /\ g j = get x t /\ get x t = Some v).
  { intros j Hj. pose proof F as (_ & _ & _ & _ & Hn). destruct (Hn j Hj) as (t & Ht). pose proof (named_valid _ _ _ _ _ F Hj Ht) as Vt. destruct (get_valid x t W Vt) as (v & Gv & _).
    exists t, v. split; [exact Ht|]. split; [|exact Gv]. unfold g. rewrite (plain_target _ _ _ _ F Hp Hj), Ht. reflexivity. }
  destruct (tab_Some (tshape ix) g) as [z Hz]. { intros j Hj. destruct (G j Hj) as (t & v & _ & -> & ->). eauto. }
  exists z. split; [exact Hz|]. destruct (tab_wf _ _ _ Hz) as [Wz Sz]. split; [exact Wz|]. split; [exact Sz|].
  intros j Hj. destruct (G j Hj) as (t & v & Ht & Eg & _). exists t. split; [exact Ht|]. rewrite (get_tab _ _ _ _ Hz Hj). exact Eg.
Qed.
Lemma hits_updates {T} s a ix (u : tensor T) t target : (forall j, valid_idx (tshape ix) j -> target j = named_place s a ix j) ->
  hits target u t (indices (tshape ix)) = updates_of s a ix u t.
Proof.
  intros H. unfold hits, updates_of. assert (G : forall L, (forall j, In j L -> valid_idx (tshape ix) j) -> flat_map (fun j => match target j, get u j with Some t', Some v => if list_eq_dec N.eq_dec t' t then [v] else [] | _, _ => [] end) L =
    flat_map (fun j => match named_place s a ix j, get u j with Some t', Some v => if list_eq_dec N.eq_dec t' t then [v] else [] | _, _ => [] end) L).
  { induction L as [|j L IH]; intros HL; [reflexivity|]. cbn [flat_map]. rewrite (H j) by (apply HL; left; reflexivity). f_equal. apply IH. intros; apply HL; right; assumption. }
  apply G. intros j. apply indices_In.
Qed.
Lemma scatter_ok {T} (op : T -> T -> T) a (x : tensor T) ix u : twf x -> twf u -> tshape u = tshape ix -> indices_fit (tshape x) a ix -> plain_indices (tshape x) a ix ->
  exists z, b_scatter op (N.of_nat a) ix u x = Some z /\ scattered op a x ix u z.
Proof.
  intros W Wu Eu F [Hp Hs]. unfold b_scatter. rewrite (plain_same _ _ _ F Hs). rewrite Eu. destruct (list_eq_dec _ _ _) as [_|?]; [|contradiction]. cbn [andb].
  destruct (scatter_fold op (b_target (N.of_nat a) ix (tshape x)) u (tshape x) (indices (tshape ix)) x W eq_refl) as (z & Hz & Wz & Sz & Gz).
  { intros j Hj. apply indices_In in Hj. rewrite (plain_target _ _ _ _ F Hp Hj). pose proof F as (_ & _ & _ & _ & Hn). destruct (Hn j Hj) as (t & Ht).
    destruct (get_valid u j Wu) as (v & Gv & _); [rewrite Eu; exact Hj|]. exists t, v. split; [exact Ht|]. split; [exact (named_valid _ _ _ _ _ F Hj Ht)|exact Gv]. }
  exists z. split; [exact Hz|]. split; [exact Wz|]. split; [exact Sz|]. intros t Ht. destruct (get_valid x t W Ht) as (w & Gw & _). exists w. split; [exact Gw|].
  rewrite (Gz t Ht), Gw. cbn [option_map]. rewrite (hits_updates (tshape x) a); [reflexivity|]. intros j Hj. apply plain_target; assumption.
Qed.

(** Without duplicates, adding the difference assigns. *)
Lemma updates_unique {T} s a ix (u : tensor T) t : indices_fit s a ix -> distinct s a ix ->
  updates_of s a ix u t = [] /\ (forall j, valid_idx (tshape ix) j -> named_place s a ix j = Some t -> get u j = None) \/
  exists j v, valid_idx (tshape ix) j /\ named_place s a ix j = Some t /\ get u j = Some v /\ updates_of s a ix u t = [v].
Proof.
  intros F D. unfold updates_of. set (h := fun j => _).
  destruct (existsb (fun j => match named_place s a ix j with Some t' => if list_eq_dec N.eq_dec t' t then true else false | None => false end) (indices (tshape ix))) eqn:E.
  - apply existsb_exists in E. destruct E as (j & Ij & Ej). pose proof (proj1 (indices_In _ _) Ij) as Hj. destruct (named_place s a ix j) as [t'|] eqn:En; [|discriminate]. destruct (list_eq_dec N.eq_dec t' t) as [->|?]; [|discriminate].
    assert (Eh : flat_map h (indices (tshape ix)) = h j).
    { apply flat_map_one; [apply indices_NoDup|exact Ij|]. intros j' Ij' Hne. unfold h. destruct (named_place s a ix j') as [t''|] eqn:En'; [|reflexivity]. destruct (get u j'); [|reflexivity].
      destruct (list_eq_dec N.eq_dec t'' t) as [->|?]; [|reflexivity]. exfalso. apply Hne. apply (D j' j t); [apply indices_In; exact Ij'|exact Hj|exact En'|exact En]. }
    destruct (get u j) as [v|] eqn:Gu.
    + right. exists j, v. repeat split; try assumption. rewrite Eh. unfold h. rewrite En, Gu. destruct (list_eq_dec N.eq_dec t t); [reflexivity|contradiction].
    + left. split; [rewrite Eh; unfold h; rewrite En, Gu; reflexivity|]. intros j' Hj' Hn'. rewrite (D j' j t Hj' Hj Hn' En). exact Gu.
  - left. assert (N : forall j, valid_idx (tshape ix) j -> named_place s a ix j <> Some t).
    { intros j Hj Ht. assert (X : existsb (fun j => match named_place s a ix j with Some t' => if list_eq_dec N.eq_dec t' t then true else false | None => false end) (indices (tshape ix)) = true).
      { apply existsb_exists. exists j. split; [apply indices_In; exact Hj|]. rewrite Ht. destruct (list_eq_dec N.eq_dec t t); [reflexivity|contradiction]. }
      rewrite X in E. discriminate. }
    split; [|intros j Hj Ht; exfalso; exact (N j Hj Ht)]. apply flat_map_none. intros j Ij. unfold h. destruct (named_place s a ix j) as [t'|] eqn:En; [|reflexivity]. destruct (get u j); [|reflexivity].
    destruct (list_eq_dec N.eq_dec t' t) as [->|?]; [|reflexivity]. exfalso. apply (N j); [apply indices_In; exact Ij|exact En].
Qed.
Lemma diff_ok {T} (add sub : T -> T -> T) a (x : tensor T) ix u : (forall d v, add d (sub v d) = v) ->
  twf x -> twf u -> tshape u = tshape ix -> indices_fit (tshape x) a ix -> plain_indices (tshape x) a ix -> distinct (tshape x) a ix ->
  exists g w z, b_gather_at (N.of_nat a) ix x = Some g /\ b_minus sub u g = Some w /\ b_scatter add (N.of_nat a) ix w x = Some z /\ scattered (fun _ v => v) a x ix u z.
Proof.
  intros Hc W Wu Eu F P D. destruct (gather_at_ok a x ix W F P) as (g & Hg & Wg & Sg & Gg).
  assert (Hw : exists w, b_minus sub u g = Some w /\ twf w /\ tshape w = tshape ix /\ forall j, valid_idx (tshape ix) j -> get w j = lift2 sub (get u j) (get g j)).
  { unfold b_minus. rewrite Eu, Sg. destruct (list_eq_dec _ _ _) as [_|?]; [|contradiction]. destruct (tab_Some (tshape ix) (fun j => lift2 sub (get u j) (get g j))) as [w Hw].
    { intros j Hj. destruct (get_valid u j Wu) as (v & -> & _); [rewrite Eu; exact Hj|]. destruct (get_valid g j Wg) as (v' & -> & _); [rewrite Sg; exact Hj|]. eexists. reflexivity. }
    exists w. split; [exact Hw|]. destruct (tab_wf _ _ _ Hw). repeat split; try assumption. intros j Hj. apply (get_tab _ _ _ _ Hw Hj). }
  destruct Hw as (w & Hw & Ww & Sw & Gw). destruct (scatter_ok add a x ix w W Ww Sw F P) as (z & Hz & Wz & Sz & Gz).
  exists g, w, z. do 3 (split; [assumption|]). split; [exact Wz|]. split; [exact Sz|]. intros t Ht. destruct (Gz t Ht) as (v0 & Gx & Ez). exists v0. split; [exact Gx|]. rewrite Ez. f_equal.
  destruct (updates_unique (tshape x) a ix u t F D) as [[Eu0 Nu]|(j & v & Hj & Hn & Gu & Eu1)].
  - rewrite Eu0. destruct (updates_unique (tshape x) a ix w t F D) as [[-> _]|(j & v & Hj & Hn & _ & _)]; [reflexivity|].
    exfalso. destruct (get_valid u j Wu) as (v' & Gu & _); [rewrite Eu; exact Hj|]. rewrite (Nu j Hj Hn) in Gu. discriminate.
  - rewrite Eu1. cbn [fold_left]. destruct (Gg j Hj) as (t' & Ht' & Egj). rewrite Hn in Ht'. injection Ht' as <-. pose proof (Gw j Hj) as Gwj. rewrite Gu, Egj, Gx in Gwj. cbn in Gwj.
    destruct (updates_unique (tshape x) a ix w t F D) as [[_ Nw]|(j' & v' & Hj' & Hn' & Gw' & ->)]; [rewrite (Nw j Hj Hn) in Gwj; discriminate|].
    assert (j' = j) by (apply (D j' j t); assumption). subst j'. rewrite Gwj in Gw'. injection Gw' as <-. cbn [fold_left]. apply Hc.
Qed.

(** ** The loop *)
Lemma strides_cons d r : strides (d :: r) = prodN r :: strides r.
Proof.
  destruct r as [|e r]; [reflexivity|]. change (strides (d :: e :: r)) with (hd 1 (strides (e :: r)) * e :: strides (e :: r)). f_equal.
  pose proof (strides_nth (e :: r) 0 ltac:(cbn; lia)) as H. destruct (strides (e :: r)) as [|s0 ss]; [discriminate|]. cbn in H. injection H as ->. cbn [hd prodN]. lia.
Qed.
Lemma div_mod_offset c U j : valid_idx U j -> (c * prodN U + offset U j) / prodN U = c /\ (c * prodN U + offset U j) mod prodN U = offset U j /\ prodN U <> 0.
Proof.
  intros Hj. pose proof (offset_lt _ _ Hj). split; [|split; [|lia]].
  - symmetry. apply (N.div_unique _ _ c (offset U j)); lia.
  - symmetry. apply (N.mod_unique _ _ c (offset U j)); lia.
Qed.
Lemma place_after dim idx : forall D U k j off, length U = length D -> valid_idx U j -> (dim < k)%nat ->
  place dim idx k D (strides D) (strides U) (offset U j) off = Some (off + offset D j).
Proof.
  induction D as [|d D IH]; intros [|m U] k j off L Hj Hk; try discriminate L; inversion Hj as [|c ? j' ? Hc Hj']; subst; cbn [place offset]; [f_equal; lia|].
  rewrite !strides_cons. destruct (div_mod_offset c U j' Hj') as (E1 & E2 & E0). replace (prodN U =? 0) with false by lia. replace (Nat.eqb k dim) with false by lia.
  rewrite E1, E2, (IH U (S k) j' _ ltac:(cbn in L; lia) Hj' ltac:(lia)). f_equal. lia.
Qed.
Lemma place_at dim idx i : forall D U k m j off d, length U = length D -> valid_idx U j -> dim = (k + m)%nat -> nth_error D m = Some d -> one_index d idx = Some i ->
  place dim idx k D (strides D) (strides U) (offset U j) off = Some (off + offset D (firstn m j ++ i :: skipn (S m) j)).
Proof.
  induction D as [|d0 D IH]; intros [|u U] k m j off d L Hj Ed Hn Hi; try discriminate L; [destruct m; discriminate Hn|]. inversion Hj as [|c ? j' ? Hc Hj']; subst.
  cbn [place offset]. rewrite !strides_cons. destruct (div_mod_offset c U j' Hj') as (E1 & E2 & E0). replace (prodN U =? 0) with false by lia. destruct m as [|m].
  - cbn in Hn. injection Hn as ->. replace (Nat.eqb k (k + 0)) with true by lia. pose proof (one_index_wrap _ _ _ Hi) as [[W1 W2] Hlt]. 
    set (z := if (idx <? 0)%Z then _ else _) in *. replace ((0 <=? z)%Z && (z <? Z.of_N d)%Z)%bool with true by lia.
    rewrite E2, W2, place_after by (try assumption; cbn in L; lia). cbn [firstn app skipn offset]. f_equal. lia.
  - replace (Nat.eqb k (k + S m)) with false by lia. rewrite E1, E2, (IH U (S k) m j' _ d) by (try assumption; cbn in L; lia). cbn [firstn app skipn offset]. f_equal. lia.
Qed.
Lemma fold_left_map' {A B C} (f : C -> B -> C) (g : A -> B) : forall l c, fold_left f (map g l) c = fold_left (fun c a => f c (g a)) l c.
Proof. induction l as [|a l IH]; intros c; [reflexivity|]. cbn. apply IH. Qed.

Section Loop.
  Context {T : Type} (add mul : T -> T -> T) (le : T -> T -> bool).
  Lemma loop_ok red a (x : tensor T) ix u : twf x -> twf u -> tshape u = tshape ix -> indices_fit (tshape x) a ix ->
    exists z, scatter_loop add mul le red (N.of_nat a) x ix u = Some z /\ scattered (loop_body add mul le red) a x ix u z.
  Proof.
    intros W Wu Eu F. set (f := loop_body add mul le red).
    destruct (scatter_fold f (named_place (tshape x) a ix) u (tshape x) (indices (tshape ix)) x W eq_refl) as (z & Hz & Wz & Sz & Gz).
    { intros j Hj. apply indices_In in Hj. pose proof F as (_ & _ & _ & _ & Hn). destruct (Hn j Hj) as (t & Ht). destruct (get_valid u j Wu) as (v & Gv & _); [rewrite Eu; exact Hj|].
      exists t, v. split; [exact Ht|]. split; [exact (named_valid _ _ _ _ _ F Hj Ht)|exact Gv]. }
    exists z. split.
    - unfold scatter_loop. rewrite <- offsets_upto, fold_left_map', Eu.
      assert (G : forall L y, (forall j, In j L -> valid_idx (tshape ix) j) -> tshape y = tshape x ->
        fold_left (fun c j => loop_step add mul le red (N.of_nat a) (tshape x) (tshape ix) (tdata ix) (tdata u) c (offset (tshape ix) j)) L (Some (tdata y)) =
        option_map tdata (fold_left (fun acc j => obind acc (fun y => obind (named_place (tshape x) a ix j) (fun t => obind (get u j) (fun v => obind (get y t) (fun w => Some (put y t (f w v))))))) L (Some y))).
      { assert (Nn : forall L, fold_left (fun c j => loop_step add mul le red (N.of_nat a) (tshape x) (tshape ix) (tdata ix) (tdata u) c (offset (tshape ix) j)) L None = None) by (induction L; [reflexivity|assumption]).
        assert (Nt : forall L, fold_left (fun acc j => obind acc (fun y => obind (named_place (tshape x) a ix j) (fun t => obind (get u j) (fun v => obind (get y t) (fun w => Some (put y t (f w v))))))) L None = None) by (induction L; [reflexivity|assumption]).
        induction L as [|j L IH]; intros y HL Ey; [reflexivity|]. cbn [fold_left].
        pose proof (HL j (or_introl eq_refl)) as Hj. pose proof F as (_ & Lr & La & _ & Hn). destruct (Hn j Hj) as (t & Ht). unfold loop_step at 2. cbn [obind].
        change (nth_error (tdata ix) (N.to_nat (offset (tshape ix) j))) with (get ix j). rewrite Ht. unfold named_place in Ht. destruct (get ix j) as [i|]; [|discriminate]. destruct (nth_error (tshape x) a) as [d|] eqn:Ed; [|discriminate].
        destruct (one_index d i) as [k|] eqn:Ek; [|discriminate]. cbn [option_map] in Ht. assert (Et : t = firstn a j ++ k :: skipn (S a) j) by congruence. subst t. clear Ht. cbn [obind]. rewrite Nat2N.id.
        rewrite (place_at a i k (tshape x) (tshape ix) 0 a j 0 d Lr Hj eq_refl Ed Ek). cbn [obind]. rewrite N.add_0_l.
        replace (nth_error (tdata u) (N.to_nat (offset (tshape ix) j))) with (get u j) by (unfold get; rewrite Eu; reflexivity).
        destruct (get u j) as [v|]; cbn [obind]; [|rewrite Nn, Nt; reflexivity].
        replace (nth_error (tdata y) (N.to_nat (offset (tshape x) (firstn a j ++ k :: skipn (S a) j)))) with (get y (firstn a j ++ k :: skipn (S a) j)) by (unfold get; rewrite Ey; reflexivity).
        destruct (get y (firstn a j ++ k :: skipn (S a) j)) as [w|]; cbn [obind]; [|rewrite Nn, Nt; reflexivity].
        rewrite <- (IH (put y (firstn a j ++ k :: skipn (S a) j) (f w v))); [unfold put; cbn [tdata]; rewrite Ey; reflexivity|intros; apply HL; right; assumption|exact Ey]. }
      rewrite (G (indices (tshape ix)) x); [|intros j; apply indices_In|reflexivity]. rewrite Hz. cbn [option_map obind]. unfold b_reshape, reshape_flat. cbn [tdata].
      unfold twf in Wz. rewrite Sz in Wz. replace (N.of_nat (length (tdata z)) =? prodN (tshape x)) with true by lia. rewrite <- Sz. destruct z; reflexivity.
    - split; [exact Wz|]. split; [exact Sz|]. intros t Ht. destruct (get_valid x t W Ht) as (w & Gw & _). exists w. split; [exact Gw|]. rewrite (Gz t Ht), Gw. cbn [option_map].
      rewrite (hits_updates (tshape x) a); [reflexivity|]. reflexivity.
  Qed.
End Loop.
