(** Lemmas about RNN, GRU and LSTM. *)
From Coq Require Import Lia ZifyBool ZifyNat ZifyN.
From Verif Require Export Recur_Model Recur_Spec.
From Verif Require Import Tensor_Proofs Lines_Proofs Index_Model Linear_Model Linear_Proofs.
Import Recur_Spec Tensor_Spec.
Local Open Scope N_scope.

(** ** Indices *)
Lemma valid1 a idx : valid_idx [a] idx -> exists i, idx = [i] /\ i < a.
Proof. intros H. inversion H as [|i ? l ? Hi Hl]; subst. inversion Hl; subst. eauto. Qed.
Lemma valid2 a b idx : valid_idx [a; b] idx -> exists i j, idx = [i; j] /\ i < a /\ j < b.
Proof. intros H. inversion H as [|i ? l ? Hi Hl]; subst. destruct (valid1 _ _ Hl) as (j & -> & Hj). eauto. Qed.
Lemma valid3 a b c idx : valid_idx [a; b; c] idx -> exists i j k, idx = [i; j; k] /\ i < a /\ j < b /\ k < c.
Proof. intros H. inversion H as [|i ? l ? Hi Hl]; subst. destruct (valid2 _ _ _ Hl) as (j & k & -> & Hj & Hk). exists i, j, k. auto. Qed.
Lemma valid4 a b c d idx : valid_idx [a; b; c; d] idx -> exists i j k l, idx = [i; j; k; l] /\ i < a /\ j < b /\ k < c /\ l < d.
Proof. intros H. inversion H as [|i ? l ? Hi Hl]; subst. destruct (valid3 _ _ _ _ Hl) as (j & k & m & -> & Hj & Hk & Hm). exists i, j, k, m. auto. Qed.
Lemma is_valid1 a i : i < a -> valid_idx [a] [i].
Proof. intros H. constructor; [exact H|constructor]. Qed.
Lemma is_valid2 a b i j : i < a -> j < b -> valid_idx [a; b] [i; j].
Proof. intros H K. constructor; [exact H|apply is_valid1; exact K]. Qed.
Lemma is_valid3 a b c i j k : i < a -> j < b -> k < c -> valid_idx [a; b; c] [i; j; k].
Proof. intros H K L. constructor; [exact H|apply is_valid2; assumption]. Qed.
Lemma is_valid4 a b c d i j k l : i < a -> j < b -> k < c -> l < d -> valid_idx [a; b; c; d] [i; j; k; l].
Proof. intros H K L M. constructor; [exact H|apply is_valid3; assumption]. Qed.

Lemma tab_def {A} s (f : list N -> option A) (g : list N -> A) : (forall idx, valid_idx s idx -> f idx = Some (g idx)) ->
  exists z, tab s f = Some z /\ twf z /\ tshape z = s /\ forall idx, valid_idx s idx -> get z idx = Some (g idx).
Proof.
  intros Hf. destruct (tab_Some s f) as [z Hz]; [intros idx Hi; eexists; apply Hf; exact Hi|].
  exists z. destruct (tab_wf _ _ _ Hz) as [Hw Hs]. repeat split; try assumption.
  intros idx Hi. rewrite (get_tab _ _ _ _ Hz Hi). apply Hf. exact Hi.
Qed.
Lemma tab_gets {A} s (f : list N -> option A) : (forall idx, valid_idx s idx -> exists v, f idx = Some v) ->
  exists z, tab s f = Some z /\ twf z /\ tshape z = s /\ forall idx, valid_idx s idx -> get z idx = f idx.
Proof.
  intros Hf. destruct (tab_Some s f Hf) as [z Hz].
  exists z. destruct (tab_wf _ _ _ Hz) as [Hw Hs]. repeat split; try assumption.
  intros idx Hi. apply (get_tab _ _ _ _ Hz Hi).
Qed.
Lemma get_some {A} (t : tensor A) s idx : twf t -> tshape t = s -> valid_idx s idx -> exists v, get t idx = Some v.
Proof. intros Hw <- Hi. destruct (get_valid t idx Hw Hi) as (v & Hv & _). eauto. Qed.

(** ** Burn's methods *)
Section Methods.
  Context {T : Type}.
  Implicit Types t w z : tensor T.
  Lemma slice1_ok t M s H : twf t -> tshape t = [M] -> s + H <= M ->
    exists z, b_slice [(s, s + H)] t = Some z /\ twf z /\ tshape z = [H] /\ forall j, j < H -> get z [j] = get t [s + j].
  Proof.
    intros Hw Hs Hle. unfold b_slice. rewrite Hs. cbn [length combine forallb fst snd Nat.eqb andb map].
    replace (s + H <=? M) with true by lia. cbn [andb]. replace (s + H - s) with H by lia.
    match goal with |- context [tab ?s0 ?f0] => destruct (tab_gets s0 f0) as (z & Hz & Hw' & Hs' & Hg) end.
    { intros idx Hi. destruct (valid1 _ _ Hi) as (j & -> & Hj). cbn. apply (get_some t [M]); [exact Hw|exact Hs|apply is_valid1; lia]. }
    exists z. repeat split; try assumption. intros j Hj. rewrite (Hg [j]) by (apply is_valid1; exact Hj). reflexivity.
  Qed.
  Lemma slice2_ok t M I s H : twf t -> tshape t = [M; I] -> s + H <= M ->
    exists z, obind (b_slice [(s, s + H); (0, I)] t) b_transpose = Some z /\ twf z /\ tshape z = [I; H] /\
      forall i j, i < I -> j < H -> get z [i; j] = get t [s + j; i].
  Proof.
    intros Hw Hs Hle. unfold b_slice. rewrite Hs. cbn [length combine forallb fst snd Nat.eqb andb map].
    replace (s + H <=? M) with true by lia. replace (I <=? I) with true by lia. cbn [andb]. replace (s + H - s) with H by lia. replace (I - 0) with I by lia.
    match goal with |- context [tab ?s0 ?f0] => destruct (tab_gets s0 f0) as (z & Hz & Hw' & Hs' & Hg) end.
    { intros idx Hi. destruct (valid2 _ _ _ Hi) as (j & i & -> & Hj & Hi'). cbn. apply (get_some t [M; I]); [exact Hw|exact Hs|apply is_valid2; lia]. }
    rewrite Hz. cbn [obind]. unfold b_transpose. rewrite Hs'.
    destruct (tab_gets [I; H] (fun idx => match idx with [i; j] => get z [j; i] | _ => None end)) as (z' & Hz' & Hw2 & Hs2 & Hg2).
    { intros idx Hi. destruct (valid2 _ _ _ Hi) as (i & j & -> & Hi' & Hj). apply (get_some z [H; I]); [exact Hw'|exact Hs'|apply is_valid2; assumption]. }
    exists z'. repeat split; try assumption. intros i j Hi Hj. rewrite (Hg2 [i; j]) by (apply is_valid2; assumption).
    rewrite (Hg [j; i]) by (apply is_valid2; assumption). cbn [map fst snd]. repeat f_equal; lia.
  Qed.
  Lemma dir3_ok t D M I d : twf t -> tshape t = [D; M; I] -> d < D -> M <> 1 -> I <> 1 ->
    exists z, obind (b_slice [(d, d + 1); (0, M); (0, I)] t) (b_squeeze_all 2) = Some z /\ twf z /\ tshape z = [M; I] /\
      forall i j, i < M -> j < I -> get z [i; j] = get t [d; i; j].
  Proof.
    intros Hw Hs Hd HM HI. unfold b_slice. rewrite Hs. cbn [length combine forallb fst snd Nat.eqb andb map].
    replace (d + 1 <=? D) with true by lia. replace (M <=? M) with true by lia. replace (I <=? I) with true by lia. cbn [andb].
    replace (d + 1 - d) with 1 by lia. replace (M - 0) with M by lia. replace (I - 0) with I by lia.
    match goal with |- context [tab ?s0 ?f0] => destruct (tab_gets s0 f0) as (z & Hz & Hw' & Hs' & Hg) end.
    { intros idx Hi. destruct (valid3 _ _ _ _ Hi) as (o & i & j & -> & Ho & Hi' & Hj). cbn. apply (get_some t [D; M; I]); [exact Hw|exact Hs|apply is_valid3; lia]. }
    rewrite Hz. cbn [obind]. unfold b_squeeze_all. rewrite Hs'. cbn [filter]. replace (1 =? 1) with true by lia. cbn [negb].
    replace (M =? 1) with false by lia. cbn [negb]. replace (I =? 1) with false by lia. cbn [negb length Nat.eqb].
    eexists. split; [reflexivity|]. split; [|split; [reflexivity|]].
    - unfold twf in *. rewrite Hs' in Hw'. cbn [tdata tshape]. rewrite Hw'. f_equal. cbn [prodN]. lia.
    - intros i j Hi Hj. pose proof (Hg [0; i; j] ltac:(apply is_valid3; lia)) as E. cbn [combine map fst snd] in E.
      replace (d + 0) with d in E by lia. replace (0 + i) with i in E by lia. replace (0 + j) with j in E by lia. rewrite <- E.
      unfold get. cbn [tdata tshape]. rewrite Hs'. f_equal.
  Qed.
  Lemma dir2_ok t D M d : twf t -> tshape t = [D; M] -> d < D -> M <> 1 ->
    exists z, obind (b_slice [(d, d + 1); (0, M)] t) (b_squeeze_all 1) = Some z /\ twf z /\ tshape z = [M] /\
      forall i, i < M -> get z [i] = get t [d; i].
  Proof.
    intros Hw Hs Hd HM. unfold b_slice. rewrite Hs. cbn [length combine forallb fst snd Nat.eqb andb map].
    replace (d + 1 <=? D) with true by lia. replace (M <=? M) with true by lia. cbn [andb].
    replace (d + 1 - d) with 1 by lia. replace (M - 0) with M by lia.
    match goal with |- context [tab ?s0 ?f0] => destruct (tab_gets s0 f0) as (z & Hz & Hw' & Hs' & Hg) end.
    { intros idx Hi. destruct (valid2 _ _ _ Hi) as (o & i & -> & Ho & Hi'). cbn. apply (get_some t [D; M]); [exact Hw|exact Hs|apply is_valid2; lia]. }
    rewrite Hz. cbn [obind]. unfold b_squeeze_all. rewrite Hs'. cbn [filter]. replace (1 =? 1) with true by lia. cbn [negb].
    replace (M =? 1) with false by lia. cbn [negb length Nat.eqb].
    eexists. split; [reflexivity|]. split; [|split; [reflexivity|]].
    - unfold twf in *. rewrite Hs' in Hw'. cbn [tdata tshape]. rewrite Hw'. f_equal. cbn [prodN]. lia.
    - intros i Hi. pose proof (Hg [0; i] ltac:(apply is_valid2; lia)) as E. cbn [combine map fst snd] in E.
      replace (d + 0) with d in E by lia. replace (0 + i) with i in E by lia. rewrite <- E.
      unfold get. cbn [tdata tshape]. rewrite Hs'. f_equal.
  Qed.
  Lemma nth_combine {A B} (a : list A) (b : list B) k : nth_error (combine a b) k = match nth_error a k, nth_error b k with Some x, Some y => Some (x, y) | _, _ => None end.
  Proof.
    revert b k. induction a as [|x a IH]; intros b k; [destruct k; reflexivity|].
    destruct b as [|y b]; [destruct k; cbn; [reflexivity|destruct (nth_error a k); reflexivity]|]. destruct k; cbn; [reflexivity|apply IH].
  Qed.
  Lemma map2o_ok add a b H : twf a -> twf b -> tshape a = [H] -> tshape b = [H] ->
    exists z, map2o add a b = Some z /\ twf z /\ tshape z = [H] /\ forall j, j < H -> get z [j] = lift2 add (get a [j]) (get b [j]).
  Proof.
    intros Ha Hb Sa Sb. unfold map2o. rewrite Sa, Sb, eqs_refl. eexists. split; [reflexivity|]. split; [|split; [reflexivity|]].
    - unfold twf in *. rewrite Sa in Ha. rewrite Sb in Hb. cbn [tdata tshape]. rewrite map_length, combine_length, Ha, Hb. lia.
    - intros j Hj. unfold get. cbn [tdata tshape]. rewrite Sa, Sb. rewrite nth_error_map, nth_combine.
      destruct (nth_error (tdata a) _), (nth_error (tdata b) _); reflexivity.
  Qed.
  Lemma zeros_get (zero : T) H j : j < H -> get (mkT [H] (repeat zero (N.to_nat H))) [j] = Some zero.
  Proof. intros Hj. unfold get. cbn [tdata tshape offset prodN]. rewrite nth_error_repeat by lia. reflexivity. Qed.
  Lemma unsq3_ok t a b c p : twf t -> tshape t = [a; b; c] -> (p <= 2)%nat ->
    exists z, b_unsqueeze p t = Some z /\ twf z /\ tshape z = firstn p [a; b; c] ++ 1 :: skipn p [a; b; c] /\
      forall i j k, get z (firstn p [i; j; k] ++ 0 :: skipn p [i; j; k]) = get t [i; j; k].
  Proof.
    intros Hw Hs Hp. unfold b_unsqueeze. rewrite Hs. cbn [length].
    destruct p as [|[|[|p]]]; [| | |lia]; cbn [Nat.leb]; (eexists; split; [reflexivity|]); (split; [|split; [reflexivity|]]);
      try (unfold twf in *; rewrite Hs in Hw; cbn [tdata tshape firstn skipn app]; rewrite Hw; f_equal; cbn [prodN]; lia);
      intros i j k; unfold get; cbn [tdata tshape firstn skipn app]; rewrite Hs; f_equal; f_equal; cbn [offset prodN]; lia.
  Qed.
  Lemma unsq2_ok t a b : twf t -> tshape t = [a; b] ->
    exists z, b_unsqueeze 0 t = Some z /\ twf z /\ tshape z = [1; a; b] /\ forall i j, get z [0; i; j] = get t [i; j].
  Proof.
    intros Hw Hs. unfold b_unsqueeze. rewrite Hs. cbn [length Nat.leb]. eexists. split; [reflexivity|]. split; [|split; [reflexivity|]].
    - unfold twf in *. rewrite Hs in Hw. cbn [tdata tshape firstn skipn app]. rewrite Hw. f_equal. cbn [prodN]. lia.
    - intros i j. unfold get. cbn [tdata tshape firstn skipn app]. rewrite Hs. f_equal.
  Qed.
  Lemma squeeze0_ok t a b : twf t -> tshape t = [1; a; b] ->
    exists z, b_squeeze_dim 0 t = Some z /\ twf z /\ tshape z = [a; b] /\ forall i j, get z [i; j] = get t [0; i; j].
  Proof.
    intros Hw Hs. unfold b_squeeze_dim. rewrite Hs. cbn [nth_error]. eexists. split; [reflexivity|]. split; [|split; [reflexivity|]].
    - unfold twf in *. rewrite Hs in Hw. cbn [tdata tshape firstn skipn app]. rewrite Hw. f_equal. cbn [prodN]. lia.
    - intros i j. unfold get. cbn [tdata tshape firstn skipn app]. rewrite Hs. f_equal.
  Qed.
  Lemma split_ok t a b h : twf t -> tshape t = [a; b; 2 * h] ->
    exists z, b_split h t = Some z /\ twf z /\ tshape z = [a; b; 2; h] /\ forall i j d k, get z [i; j; d; k] = get t [i; j; d * h + k].
  Proof.
    intros Hw Hs. unfold b_split. rewrite Hs. replace (a * b * (2 * h) =? a * b * 2 * h) with true by lia. eexists. split; [reflexivity|]. split; [|split; [reflexivity|]].
    - unfold twf in *. rewrite Hs in Hw. cbn [tdata tshape]. rewrite Hw. f_equal. cbn [prodN]. lia.
    - intros i j d k. unfold get. cbn [tdata tshape]. rewrite Hs. f_equal. f_equal. cbn [offset prodN]. lia.
  Qed.
  Lemma swap12_ok t a b c d : twf t -> tshape t = [a; b; c; d] ->
    exists z, b_swap 1 2 t = Some z /\ twf z /\ tshape z = [a; c; b; d] /\
      forall i j k l, i < a -> j < b -> k < c -> l < d -> get z [i; k; j; l] = get t [i; j; k; l].
  Proof.
    intros Hw Hs. unfold b_swap. rewrite Hs. cbn [swapped length seq mapo nth_error Nat.eqb obind].
    destruct (tab_gets [a; c; b; d] (fun idx => obind (swapped 1 2 idx) (get t))) as (z & Hz & Hw' & Hs' & Hg).
    { intros idx Hi. destruct (valid4 _ _ _ _ _ Hi) as (i & k & j & l & -> & Hi' & Hk & Hj & Hl). cbn [swapped length seq mapo nth_error Nat.eqb obind].
      apply (get_some t [a; b; c; d]); [exact Hw|exact Hs|apply is_valid4; assumption]. }
    exists z. repeat split; try assumption. intros i j k l Hi Hj Hk Hl. rewrite (Hg [i; k; j; l]) by (apply is_valid4; assumption). reflexivity.
  Qed.
  Lemma swap01_ok t a b c : twf t -> tshape t = [a; b; c] ->
    exists z, b_swap 0 1 t = Some z /\ twf z /\ tshape z = [b; a; c] /\
      forall i j k, i < a -> j < b -> k < c -> get z [j; i; k] = get t [i; j; k].
  Proof.
    intros Hw Hs. unfold b_swap. rewrite Hs. cbn [swapped length seq mapo nth_error Nat.eqb obind].
    destruct (tab_gets [b; a; c] (fun idx => obind (swapped 0 1 idx) (get t))) as (z & Hz & Hw' & Hs' & Hg).
    { intros idx Hi. destruct (valid3 _ _ _ _ Hi) as (j & i & k & -> & Hj & Hi' & Hk). cbn [swapped length seq mapo nth_error Nat.eqb obind].
      apply (get_some t [a; b; c]); [exact Hw|exact Hs|apply is_valid3; assumption]. }
    exists z. repeat split; try assumption. intros i j k Hi Hj Hk. rewrite (Hg [j; i; k]) by (apply is_valid3; assumption). reflexivity.
  Qed.
  Lemma flip1_ok t a b c : twf t -> tshape t = [a; b; c] ->
    exists z, b_flip1 t = Some z /\ twf z /\ tshape z = [a; b; c] /\
      forall i j k, i < a -> j < b -> k < c -> get z [i; j; k] = get t [i; b - 1 - j; k].
  Proof.
    intros Hw Hs. unfold b_flip1. rewrite Hs.
    destruct (tab_gets [a; b; c] (fun idx => match idx with [i; j; l] => get t [i; b - 1 - j; l] | _ => None end)) as (z & Hz & Hw' & Hs' & Hg).
    { intros idx Hi. destruct (valid3 _ _ _ _ Hi) as (i & j & k & -> & Hi' & Hj & Hk). apply (get_some t [a; b; c]); [exact Hw|exact Hs|apply is_valid3; lia]. }
    exists z. repeat split; try assumption. intros i j k Hi Hj Hk. rewrite (Hg [i; j; k]) by (apply is_valid3; assumption). reflexivity.
  Qed.
  Lemma step_ok t a b c (l : bool) : twf t -> tshape t = [a; b; c] -> 0 < b ->
    exists z, b_step l t = Some z /\ twf z /\ tshape z = [a; c] /\
      forall i k, i < a -> k < c -> get z [i; k] = get t [i; if l then b - 1 else 0; k].
  Proof.
    intros Hw Hs Hb. unfold b_step. rewrite Hs. set (p := if l then b - 1 else 0).
    replace (if l then (b - 1, b) else (0, 1)) with (p, p + 1) by (unfold p; destruct l; f_equal; lia).
    assert (Hp : p + 1 <= b) by (unfold p; destruct l; lia). clearbody p.
    unfold b_slice. rewrite Hs. cbn [length combine forallb fst snd Nat.eqb andb map].
    replace (p + 1 <=? b) with true by lia. replace (a <=? a) with true by lia. replace (c <=? c) with true by lia. cbn [andb].
    replace (p + 1 - p) with 1 by lia. replace (a - 0) with a by lia. replace (c - 0) with c by lia.
    match goal with |- context [tab ?s0 ?f0] => destruct (tab_gets s0 f0) as (z & Hz & Hw' & Hs' & Hg) end.
    { intros idx Hi. destruct (valid3 _ _ _ _ Hi) as (i & o & k & -> & Hi' & Ho & Hk). cbn. apply (get_some t [a; b; c]); [exact Hw|exact Hs|apply is_valid3; lia]. }
    rewrite Hz. cbn [obind]. unfold b_squeeze_dim. rewrite Hs'. cbn [nth_error firstn skipn app].
    eexists. split; [reflexivity|]. split; [|split; [reflexivity|]].
    - unfold twf in *. rewrite Hs' in Hw'. cbn [tdata tshape]. rewrite Hw'. f_equal. cbn [prodN]. lia.
    - intros i k Hi Hk. pose proof (Hg [i; 0; k] ltac:(apply is_valid3; lia)) as E. cbn [combine map fst snd] in E.
      replace (p + 0) with p in E by lia. replace (0 + i) with i in E by lia. replace (0 + k) with k in E by lia. rewrite <- E.
      unfold get. cbn [tdata tshape]. rewrite Hs'. f_equal. f_equal. cbn [offset prodN]. lia.
  Qed.
End Methods.
