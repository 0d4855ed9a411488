From Coq Require Import Lia ZifyBool ZifyNat ZifyN.
From Verif Require Import Index_Model Tensor_Proofs Fold_Proofs Permute_Proofs BinOps_Proofs Payload_Proofs Shapes_Spec.
Import Tensor_Spec BinOps_Spec RankOps_Spec ShapeRun_Spec.
From Coq Require Import SpecFloat.
Local Open Scope N_scope.

(** * Lists of positions *)
Lemma offsets_upto s : map (offset s) (indices s) = upto (prodN s).
Proof.
  apply nth_error_ext. intros k. destruct (Nat.ltb_spec k (N.to_nat (prodN s))) as [H|H].
  - destruct (offset_surj s k H) as (idx & Hv & Ho).
    rewrite nth_error_map. rewrite <- Ho at 1. rewrite (indices_offset s idx Hv). cbn. rewrite upto_nth by exact H. f_equal. lia.
  - transitivity (@None N); [|symmetry]; apply nth_error_None.
    + rewrite map_length, indices_length. exact H.
    + rewrite upto_length. exact H.
Qed.

Lemma flat_map_map {A B C} (f : A -> B) (g : B -> list C) l : flat_map g (map f l) = flat_map (fun x => g (f x)) l.
Proof. induction l; cbn; congruence. Qed.
Lemma map_flat_map {A B C} (f : B -> C) (g : A -> list B) l : map f (flat_map g l) = flat_map (fun x => map f (g x)) l.
Proof. induction l; cbn; [reflexivity|]. rewrite map_app. congruence. Qed.
Lemma flat_map_flat_map {A B C} (g : A -> list B) (h : B -> list C) l : flat_map h (flat_map g l) = flat_map (fun x => flat_map h (g x)) l.
Proof. induction l; cbn; [reflexivity|]. rewrite flat_map_app. congruence. Qed.
Lemma flat_map_ext' {A B} (f g : A -> list B) l : (forall x, f x = g x) -> flat_map f l = flat_map g l.
Proof. intros H. induction l; cbn; congruence. Qed.

Lemma indices_app a b : indices (a ++ b) = flat_map (fun u => map (app u) (indices b)) (indices a).
Proof.
  induction a as [|d a IH]; cbn [app indices].
  - cbn. rewrite app_nil_r. induction (indices b); cbn; congruence.
  - rewrite flat_map_flat_map. apply flat_map_ext'. intros i. rewrite IH, map_flat_map, flat_map_map.
    apply flat_map_ext'. intros u. rewrite map_map. reflexivity.
Qed.

Lemma mapo_app {A B} (f : A -> option B) l l' :
  mapo f (l ++ l') = match mapo f l, mapo f l' with Some x, Some y => Some (x ++ y) | _, _ => None end.
Proof.
  induction l as [|a l IH]; cbn [app mapo]; [destruct (mapo f l'); reflexivity|].
  rewrite IH. destruct (f a), (mapo f l), (mapo f l'); reflexivity.
Qed.
Lemma mapo_flat {A B C} (f : B -> option C) (g : A -> list B) l :
  mapo f (flat_map g l) = option_map (@concat C) (mapo (fun x => mapo f (g x)) l).
Proof.
  induction l as [|a l IH]; cbn [flat_map mapo]; [reflexivity|]. rewrite mapo_app, IH.
  destruct (mapo f (g a)), (mapo (fun x => mapo f (g x)) l); reflexivity.
Qed.
Lemma mapo_total {A B} (f : A -> B) l : mapo (fun x => Some (f x)) l = Some (map f l).
Proof. induction l as [|a l IH]; cbn; [reflexivity|]. rewrite IH. reflexivity. Qed.
Lemma mapo_In {A B} (f : A -> option B) l l' x : mapo f l = Some l' -> In x l -> exists y, f x = Some y.
Proof.
  revert l'. induction l as [|a l IH]; intros l' H Hx; [destruct Hx|]. cbn in H. destruct (f a) eqn:E; [|discriminate].
  destruct (mapo f l); [|discriminate]. destruct Hx as [<- | Hx]; eauto.
Qed.

Lemma valid_app s s' i i' : valid_idx s i -> valid_idx s' i' -> valid_idx (s ++ s') (i ++ i').
Proof. intros H H'. apply Forall2_app; assumption. Qed.
Lemma valid_split s s' idx : valid_idx (s ++ s') idx ->
  valid_idx s (firstn (length s) idx) /\ valid_idx s' (skipn (length s) idx).
Proof.
  revert idx. induction s as [|d s IH]; intros idx H; cbn [length firstn skipn].
  - split; [constructor|exact H].
  - inversion H as [|i d' idx' l' Hi Hr]; subst. destruct (IH _ Hr) as [H1 H2]. split; [constructor; assumption|exact H2].
Qed.
Lemma valid_length s idx : valid_idx s idx -> length idx = length s.
Proof. intros H. exact (Forall2_length H). Qed.

(** * Strides and offsets *)
Lemma strides_length dims : length (strides dims) = length dims.
Proof. induction dims as [|d [|e r] IH]; [reflexivity..|]. cbn [strides length] in *. congruence. Qed.
Lemma strides_nth dims : forall i, (i < length dims)%nat -> nth_error (strides dims) i = Some (prodN (skipn (S i) dims)).
Proof.
  induction dims as [|d r IH]; intros i Hi; [cbn in Hi; lia|]. destruct r as [|e r].
  { cbn [length] in Hi. replace i with 0%nat by lia. reflexivity. }
  change (strides (d :: e :: r)) with (hd 1 (strides (e :: r)) * e :: strides (e :: r)).
  destruct i as [|i].
  - cbn [nth_error skipn]. pose proof (IH 0%nat ltac:(cbn; lia)) as H0. destruct (strides (e :: r)) as [|s0 ss]; [discriminate|].
    cbn in H0. injection H0 as ->. cbn [hd skipn prodN]. f_equal. lia.
  - cbn [nth_error]. rewrite IH by (cbn [length] in *; lia). reflexivity.
Qed.

Lemma nth_skipn {A} (l : list A) n x r : skipn n l = x :: r -> nth_error l n = Some x /\ skipn (S n) l = r.
Proof.
  revert l. induction n as [|n IH]; intros [|a l] H; cbn in H; try discriminate.
  - injection H as -> ->. split; reflexivity.
  - apply IH in H. exact H.
Qed.

Lemma one_index_wrap d z i : one_index d z = Some i ->
  (let z' := if (z <? 0)%Z then (z + Z.of_N d)%Z else z in (z' <? 0)%Z = false /\ Z.to_N z' = i) /\ i < d.
Proof.
  unfold one_index, from_end. destruct ((- Z.of_N d <=? z) && (z <? Z.of_N d))%Z eqn:E; [|discriminate].
  intros H. injection H as <-. cbn zeta. destruct (z <? 0)%Z eqn:Ez; lia.
Qed.

Lemma tuple_fold vals dims b from S : forall K t j start,
  skipn (b + j) dims = K ++ S -> length t = length K ->
  (forall i d, nth_error K i = Some d -> exists z, nth_error vals (from + (j + i)) = Some z /\ one_index d z = nth_error t i) ->
  fold_left (add_index vals dims b from) (seq j (length K)) (Some start) = Some (start + offset K t * prodN S) /\ valid_idx K t.
Proof.
  induction K as [|d K IH]; intros t j start Hs Hl Hv.
  - cbn in *. destruct t; [|discriminate]. split; [f_equal; lia|constructor].
  - destruct t as [|i t]; [discriminate|]. cbn [length] in Hl.
    destruct (Hv 0%nat d eq_refl) as (z & Hz & Hi). rewrite Nat.add_0_r in Hz. cbn in Hi. destruct (one_index_wrap _ _ _ Hi) as [[Hz0 Hz1] Hlt].
    cbn [app] in Hs. destruct (nth_skipn _ _ _ _ Hs) as [Hd Hs'].
    assert (Hlen : (b + j < length dims)%nat) by (apply nth_error_Some; congruence).
    cbn [seq fold_left length].
    assert (Hone : add_index vals dims b from (Some start) j = Some (start + i * prodN (K ++ S))).
    { unfold add_index. cbn [obind]. rewrite Hz. cbn [obind]. rewrite Hd. cbn [obind]. rewrite strides_nth by exact Hlen. cbn [obind]. rewrite Hs'.
      cbv zeta in Hz0, Hz1 |- *. rewrite Hz0, Hz1. reflexivity. }
    rewrite Hone. destruct (IH t (Datatypes.S j) (start + i * prodN (K ++ S))) as [IH1 IH2].
    + rewrite <- Hs'. f_equal. lia.
    + lia.
    + intros m e Hm. destruct (Hv (Datatypes.S m) e Hm) as (y & Hy & Hy'). exists y. split; [rewrite <- Hy; f_equal; lia|exact Hy'].
    + rewrite IH1. split; [|constructor; assumption]. f_equal. cbn [offset]. rewrite prodN_app. lia.
Qed.

(** * Reading the index tensor *)
Lemma last_shape (s : list N) : s <> [] -> s = removelast s ++ [last s 0].
Proof. apply app_removelast_last. Qed.

Lemma as_ints_nth ix vals : as_ints ix = Some vals -> forall m, nth_error vals m = match nth_error (tdata ix) m with Some (EI z) => Some z | _ => None end.
Proof.
  unfold as_ints. intros H m. destruct (nth_error (tdata ix) m) as [x|] eqn:E.
  - rewrite (mapo_nth _ _ _ _ _ H E). reflexivity.
  - apply nth_error_None in E. apply nth_error_None. rewrite (mapo_length _ _ _ H). exact E.
Qed.

Lemma get_tuple (ix : tensor elt) P k at_ j : tshape ix = P ++ [k] -> length at_ = length P -> 
  get ix (at_ ++ [j]) = nth_error (tdata ix) (N.to_nat (offset P at_ * k + j)).
Proof. intros Hs Hl. unfold get. rewrite Hs, offset_app by exact Hl. cbn [prodN offset]. f_equal. f_equal. lia. Qed.

Lemma combine_nth_error {A B} : forall (l : list A) (l' : list B) i x y,
  nth_error l i = Some x -> nth_error l' i = Some y -> nth_error (combine l l') i = Some (x, y).
Proof.
  induction l as [|a l IH]; intros [|b l'] [|i] x y H H'; cbn in *; try discriminate; try congruence. eauto.
Qed.

Lemma tuple_offset_ok (ix : tensor elt) vals P k at_ dims b D K S t start :
  tshape ix = P ++ [k] -> length at_ = length P -> as_ints ix = Some vals ->
  dims = b ++ D -> D = K ++ S -> length K = N.to_nat k ->
  index_tuple ix D at_ k = Some t ->
  tuple_offset vals dims (length b) (N.to_nat (offset P at_ * k)) (N.to_nat k) start = Some (start + offset K t * prodN S) /\ valid_idx K t.
Proof.
  intros Hs Hl Hv -> -> HK Ht. unfold tuple_offset. rewrite <- HK. unfold index_tuple in Ht.
  assert (Hc : length (combine (upto k) (K ++ S)) = length K).
  { rewrite combine_length, upto_length, app_length. lia. }
  apply tuple_fold.
  - rewrite Nat.add_0_r. rewrite skipn_app, skipn_all, Nat.sub_diag. reflexivity.
  - rewrite (mapo_length _ _ _ Ht). exact Hc.
  - intros i d Hi. assert (Hlt : (i < length K)%nat) by (apply nth_error_Some; congruence).
    assert (Hn : nth_error (combine (upto k) (K ++ S)) i = Some (N.of_nat i, d)).
    { apply combine_nth_error; [apply upto_nth; lia|]. rewrite nth_error_app1 by exact Hlt. exact Hi. }
    pose proof (mapo_nth _ _ _ _ _ Ht Hn) as Hm. cbn [fst snd] in Hm.
    rewrite (get_tuple ix P k at_ (N.of_nat i) Hs Hl) in Hm.
    assert (Hti : exists y, nth_error t i = Some y).
    { destruct (nth_error t i) eqn:E; [eauto|]. apply nth_error_None in E. rewrite (mapo_length _ _ _ Ht) in E. lia. }
    destruct Hti as [y Hy]. rewrite Hy in Hm |- *.
    pose proof (as_ints_nth _ _ Hv (N.to_nat (offset P at_ * k + N.of_nat i))) as Ha.
    destruct (nth_error (tdata ix) (N.to_nat (offset P at_ * k + N.of_nat i))) as [[z| |]|]; try discriminate.
    exists z. split; [|congruence]. rewrite <- Ha. f_equal. lia.
Qed.

(** * GatherND *)
Lemma as_i32_small n : n < 2147483648 -> as_i32 n = Z.of_N n.
Proof. intros H. unfold as_i32. rewrite Z.mod_small by lia. lia. Qed.

Lemma upto_upto_flat {B} s (f : N -> B) : map f (upto (prodN s)) = map (fun u => f (offset s u)) (indices s).
Proof. rewrite <- offsets_upto, map_map. reflexivity. Qed.

Lemma tuples_ok_all ix dims : tuples_ok ix dims = true -> forall u, valid_idx (tuple_places ix) u ->
  exists t, index_tuple ix dims u (tuple_size ix) = Some t.
Proof.
  unfold tuples_ok. intros H u Hu. rewrite forallb_forall in H. specialize (H u (proj2 (indices_In _ _) Hu)).
  destruct (index_tuple ix dims u (tuple_size ix)); [eauto|discriminate].
Qed.

Lemma firstn_app_exact {A} (a b : list A) : firstn (length a) (a ++ b) = a.
Proof. rewrite firstn_app, firstn_all, Nat.sub_diag. cbn. apply app_nil_r. Qed.
Lemma skipn_app_exact {A} (a b : list A) : skipn (length a) (a ++ b) = b.
Proof. rewrite skipn_app, skipn_all, Nat.sub_diag. reflexivity. Qed.
Lemma firstn_app_exact' {A} n (a b : list A) : length a = n -> firstn n (a ++ b) = a.
Proof. intros <-. apply firstn_app_exact. Qed.
Lemma skipn_app_exact' {A} n (a b : list A) : length a = n -> skipn n (a ++ b) = b.
Proof. intros <-. apply skipn_app_exact. Qed.

Lemma select_flat_of {X} (l : list X) data (g : X -> N) (Hg : forall x, In x l -> g x < 2147483648) :
  select_flat data (map (fun x => as_i32 (g x)) l) = mapo (fun x => nth_error data (N.to_nat (g x))) l.
Proof.
  unfold select_flat. rewrite mapo_map. apply mapo_ext. intros x Hx. rewrite as_i32_small by (apply Hg; exact Hx).
  destruct (Z.of_N (g x) <? 0)%Z eqn:E; [lia|]. f_equal. lia.
Qed.

(** The shapes of the data, as the batch, index and slice dimensions. *)
Lemma gather_nd_ok b x ix vals z rank :
  twf x -> gather_nd b x ix = Some z -> as_ints ix = Some vals -> prodN (tshape x) <= 2147483648 ->
  rank = N.of_nat (length (tshape z)) ->
  gather_code (N.of_nat b) rank x (tshape ix) vals = Some z.
Proof.
  intros Hx Hz Hv Hsize Hrank. unfold gather_nd in Hz. cbv zeta in Hz.
  destruct (tuples_ok ix (skipn b (tshape x))) eqn:Hok; [|rewrite andb_false_r in Hz; discriminate Hz].
  pose proof (tuples_ok_all _ _ Hok) as Hdef. clear Hok. rewrite andb_true_r in Hz.
  set (k := tuple_size ix) in *. set (Q := tuple_places ix) in *. set (dims := tshape x) in *.
  destruct ((b <? Nat.min (length (tshape ix)) (length dims))%nat && (1 <=? k) && (N.of_nat b + k <=? N.of_nat (length dims))) eqn:E; [|discriminate Hz].
  cbn [andb] in Hz.
  destruct (list_eq_dec N.eq_dec (firstn b dims) (firstn b (tshape ix))) as [HB|]; [|discriminate Hz].
  assert (Hne : tshape ix <> []) by (intros H0; rewrite H0 in E; cbn in E; lia).
  assert (His : tshape ix = Q ++ [k]) by (apply last_shape; exact Hne).
  assert (Hq : length (tshape ix) = S (length Q)) by (rewrite His, app_length; cbn; lia).
  (* split the data dimensions *)
  set (B := firstn b dims) in *. set (K := firstn (N.to_nat k) (skipn b dims)). set (S := skipn (b + N.to_nat k) dims) in *.
  assert (HBl : length B = b) by (unfold B; rewrite firstn_length; lia).
  assert (HKl : length K = N.to_nat k) by (unfold K; rewrite firstn_length, skipn_length; lia).
  assert (HD : skipn b dims = K ++ S) by (unfold K, S; rewrite skipn_add; symmetry; apply firstn_skipn).
  assert (Hdims : dims = B ++ K ++ S) by (rewrite <- HD; symmetry; apply firstn_skipn).
  set (L := skipn b Q).
  assert (HQ : Q = B ++ L).
  { rewrite His, firstn_app in HB. replace (b - length Q)%nat with 0%nat in HB by lia. cbn [firstn] in HB. rewrite app_nil_r in HB.
    unfold L. rewrite <- (firstn_skipn b Q) at 1. rewrite HB. reflexivity. }
  replace (length (tshape ix) - 1)%nat with (length Q) in Hz by lia.
  destruct (tab_wf _ _ _ Hz) as [Hzw Hzs].
  unfold gather_code. cbv zeta. fold dims. rewrite Nnat.Nat2N.id.
  replace (length (tshape ix) - 1)%nat with (length Q) by lia.
  assert (Hk : nth_error (tshape ix) (length Q) = Some k) by (rewrite His, nth_error_app2, Nat.sub_diag by lia; reflexivity).
  rewrite Hk. cbn [obind].
  assert (Hbc : (if N.of_nat b =? 0 then Some 1 else option_map prodN (range dims 0 (N.of_nat b))) = Some (prodN B)).
  { destruct (N.of_nat b =? 0) eqn:E0; [unfold B; replace b with 0%nat by lia; reflexivity|].
    unfold range. replace ((0 <=? N.of_nat b) && (N.of_nat b <=? N.of_nat (length dims))) with true by lia.
    cbn [option_map]. unfold B. cbn [N.to_nat skipn]. do 3 f_equal. lia. }
  rewrite Hbc. cbn [obind].
  assert (Hlk : range (tshape ix) (N.of_nat b) (N.of_nat (length Q)) = Some L).
  { assert (HbQ : (b <= length Q)%nat) by lia.
    unfold range. replace ((N.of_nat b <=? N.of_nat (length Q)) && (N.of_nat (length Q) <=? N.of_nat (length (tshape ix)))) with true by lia.
    f_equal. rewrite Nnat.Nat2N.id, His, skipn_app. replace (b - length Q)%nat with 0%nat by lia. cbn [skipn].
    fold L. apply firstn_app_exact'. unfold L. rewrite skipn_length. lia. }
  rewrite Hlk. cbn [option_map obind].
  assert (Hslice : (if N.of_nat b + k <? N.of_nat (length dims) then prodN (skipn (b + N.to_nat k) dims) else 1) = prodN S).
  { destruct (N.of_nat b + k <? N.of_nat (length dims)) eqn:E1; [reflexivity|].
    unfold S. rewrite skipn_all2 by lia. reflexivity. }
  rewrite Hslice.
  assert (Hbs : (if N.of_nat b =? 0 then prodN dims else prodN (skipn b dims)) = prodN (K ++ S)).
  { destruct (N.of_nat b =? 0) eqn:E0; [|rewrite HD; reflexivity]. rewrite <- HD. replace b with 0%nat by lia. reflexivity. }
  rewrite Hbs.
  set (T := fun u => match index_tuple ix (K ++ S) u k with Some t => t | None => [] end).
  set (g := fun idx => offset dims (firstn b idx ++ T (firstn (length Q) idx) ++ skipn (length Q) idx)).
  assert (HT : forall ub ul, valid_idx B ub -> valid_idx L ul -> index_tuple ix (K ++ S) (ub ++ ul) k = Some (T (ub ++ ul)) /\ valid_idx K (T (ub ++ ul)) /\
     forall start, tuple_offset vals dims b (N.to_nat ((offset B ub * prodN L + offset L ul) * k)) (N.to_nat k) start = Some (start + offset K (T (ub ++ ul)) * prodN S)).
  { intros ub ul Hub Hul. assert (Hu : valid_idx Q (ub ++ ul)) by (rewrite HQ; apply valid_app; assumption).
    destruct (Hdef _ Hu) as [t Ht]. fold k in Ht. rewrite HD in Ht. unfold T. rewrite Ht. split; [reflexivity|].
    assert (Ho : offset B ub * prodN L + offset L ul = offset Q (ub ++ ul)) by (rewrite HQ, offset_app by (apply valid_length; exact Hub); reflexivity).
    rewrite Ho. 
    pose proof (fun start => tuple_offset_ok ix vals Q k (ub ++ ul) dims B (K ++ S) K S t start His (valid_length _ _ Hu) Hv Hdims eq_refl HKl Ht) as H.
    rewrite HBl in H. split; [exact (proj2 (H 0))|intros start; exact (proj1 (H start))]. }
  assert (Hinner : forall ub ul, valid_idx B ub -> valid_idx L ul ->
     option_map (fun o => map (fun s => as_i32 (o + s)) (upto (prodN S)))
       (tuple_offset vals dims b (N.to_nat ((offset B ub * prodN L + offset L ul) * k)) (N.to_nat k) (offset B ub * prodN (K ++ S)))
     = Some (map (fun s => as_i32 (g ((ub ++ ul) ++ s))) (indices S))).
  { intros ub ul Hub Hul. destruct (HT ub ul Hub Hul) as (_ & Hvt & Ho). rewrite Ho. cbn [option_map]. f_equal.
    rewrite upto_upto_flat. apply map_ext. intros s. f_equal. unfold g.
    assert (Hfb : firstn b ((ub ++ ul) ++ s) = ub) by (rewrite <- app_assoc; apply firstn_app_exact'; rewrite (valid_length _ _ Hub); exact HBl).
    rewrite Hfb. assert (Hlq : length (ub ++ ul) = length Q) by (rewrite HQ, !app_length, (valid_length _ _ Hub), (valid_length _ _ Hul); reflexivity).
    rewrite (firstn_app_exact' _ _ _ Hlq), (skipn_app_exact' _ _ _ Hlq).
    rewrite Hdims, offset_app by (apply valid_length; exact Hub). rewrite offset_app by (apply valid_length; exact Hvt).
    rewrite (prodN_app K S). lia. }
  assert (Hflat : exists flat,
     mapo (fun bi => option_map (concat (A:=Z)) (mapo (fun li => option_map (fun o => map (fun s => as_i32 (o + s)) (upto (prodN S)))
         (tuple_offset vals dims b (N.to_nat ((bi * prodN L + li) * k)) (N.to_nat k) (bi * prodN (K ++ S)))) (upto (prodN L)))) (upto (prodN B)) = Some flat
     /\ concat flat = map (fun idx => as_i32 (g idx)) (indices (Q ++ S))).
  { exists (map (fun ub => concat (map (fun ul => map (fun s => as_i32 (g ((ub ++ ul) ++ s))) (indices S)) (indices L))) (indices B)). split.
    - rewrite <- (offsets_upto B), mapo_map, <- mapo_total. apply mapo_ext. intros ub Hub. apply indices_In in Hub.
      rewrite <- (offsets_upto L), mapo_map.
      rewrite (mapo_ext _ (fun ul => Some (map (fun s => as_i32 (g ((ub ++ ul) ++ s))) (indices S))) (indices L)).
      { rewrite mapo_total. reflexivity. }
      intros ul Hul. apply indices_In in Hul. apply Hinner; assumption.
    - rewrite HQ, <- app_assoc, !indices_app, <- !flat_map_concat_map, map_flat_map. apply flat_map_ext'. intros ub.
      rewrite <- flat_map_concat_map. rewrite map_map, map_flat_map. apply flat_map_ext'. intros ul. rewrite map_map.
      apply map_ext. intros s. rewrite app_assoc. reflexivity. }
  destruct Hflat as (flat & -> & Hcat). cbn [obind].
  assert (Hxr : reshape_flat [prodN dims] (tdata x) = Some (mkT [prodN dims] (tdata x))).
  { unfold reshape_flat. unfold twf in Hx. fold dims in Hx. cbn [prodN]. replace (N.of_nat (length (tdata x)) =? prodN dims * 1) with true by lia. reflexivity. }
  rewrite Hxr. cbn [obind tdata]. rewrite Hcat.
  assert (Hg : forall idx, valid_idx (Q ++ S) idx -> index_tuple ix (skipn b dims) (firstn (length Q) idx) k = Some (T (firstn (length Q) idx)) /\
     valid_idx dims (firstn b idx ++ T (firstn (length Q) idx) ++ skipn (length Q) idx)).
  { intros idx Hi. destruct (valid_split _ _ _ Hi) as [Hu Hs]. set (u := firstn (length Q) idx) in *.
    assert (Hub : valid_idx B (firstn b idx)).
    { rewrite HQ, <- app_assoc in Hi. destruct (valid_split _ _ _ Hi) as [H _]. rewrite HBl in H. exact H. }
    pose proof Hu as Hu'. rewrite HQ in Hu'. destruct (valid_split _ _ _ Hu') as [H1 H2].
    destruct (HT _ _ H1 H2) as (H3 & H4 & _). rewrite firstn_skipn in H3, H4. rewrite HD. split; [exact H3|].
    rewrite Hdims. apply valid_app; [exact Hub|]. apply valid_app; assumption. }
  rewrite select_flat_of.
  2:{ intros idx Hi. apply indices_In in Hi. destruct (Hg idx Hi) as [_ H]. pose proof (offset_lt _ _ H). unfold g. lia. }
  assert (Hdat : mapo (fun idx => nth_error (tdata x) (N.to_nat (g idx))) (indices (Q ++ S)) = Some (tdata z)).
  { unfold tab in Hz. destruct (mapo _ (indices (Q ++ S))) as [zl|] eqn:Ez in Hz; [|discriminate Hz]. injection Hz as <-. cbn [tdata].
    rewrite <- Ez. apply mapo_ext. intros idx Hi. apply indices_In in Hi. destruct (Hg idx Hi) as [-> _]. reflexivity. }
  rewrite Hdat. cbn [obind].
  assert (Hshape : B ++ firstn (length Q - b) (skipn b (tshape ix)) ++ S = tshape z).
  { rewrite Hzs. rewrite His, skipn_app. replace (b - length Q)%nat with 0%nat by lia. cbn [skipn]. fold L.
    rewrite (firstn_app_exact' (length Q - b) L) by (unfold L; rewrite skipn_length; lia). rewrite app_assoc, <- HQ. reflexivity. }
  fold B S. rewrite Hshape. unfold into_array. rewrite Hrank, N.leb_refl. rewrite Nnat.Nat2N.id, Nat.sub_diag. cbn [repeat]. rewrite app_nil_r. cbn [obind].
  unfold reshape_flat. unfold twf in Hzw. replace (N.of_nat (length (tdata z)) =? prodN (tshape z)) with true by lia.
  destruct z; reflexivity.
Qed.

(** * GatherND with a scalar result *)
Lemma gather_one_ok x ix vals z r :
  twf x -> gather_nd 0 x ix = Some z -> as_ints ix = Some vals -> prodN (tshape x) <= 2147483648 ->
  length (tshape ix) = 1%nat -> length (tshape x) = r -> tuple_size ix = N.of_nat r ->
  gather_one_code 0 x vals = Some (mkT [1] (tdata z)) /\ tshape z = [].
Proof.
  intros Hx Hz Hv Hsize Hq Hr Hk. unfold gather_nd in Hz. cbv zeta in Hz. cbn [skipn firstn Nat.add] in Hz. rewrite app_nil_l in Hz || idtac.
  destruct (tuples_ok ix (tshape x)) eqn:Hok; [|rewrite andb_false_r in Hz; discriminate Hz].
  pose proof (tuples_ok_all _ _ Hok) as Hdef. clear Hok.
  destruct (_ && _ && _ && true) in Hz; [|discriminate Hz]. cbn [andb] in Hz.
  destruct (list_eq_dec N.eq_dec [] []) in Hz; [|discriminate Hz].
  assert (His : tshape ix = tuple_places ix ++ [tuple_size ix]).
  { apply last_shape. intros H0. rewrite H0 in Hq. discriminate Hq. }
  assert (HQ : tuple_places ix = []).
  { rewrite His, app_length in Hq. cbn [length] in Hq. destruct (tuple_places ix); [reflexivity|cbn in Hq; lia]. }
  rewrite Hq, HQ, Hk, Nnat.Nat2N.id, <- Hr in Hz. rewrite skipn_all in Hz. unfold tab in Hz. cbn in Hz.
  destruct (Hdef []) as [t Ht]; [rewrite HQ; constructor|]. rewrite Hk, <- Hr in Ht. rewrite Ht, app_nil_r in Hz.
  assert (Hdims : tshape x = [] ++ tshape x ++ []) by (rewrite app_nil_r; reflexivity).
  rewrite Hk, <- Hr, HQ in His. assert (Ht' : index_tuple ix (tshape x ++ []) [] (N.of_nat (length (tshape x))) = Some t) by (rewrite app_nil_r; exact Ht).
  destruct (tuple_offset_ok ix vals [] (N.of_nat (length (tshape x))) [] (tshape x) [] (tshape x ++ []) (tshape x) [] t 0 His eq_refl Hv Hdims eq_refl ltac:(lia) Ht') as [Ho Hvt].
  cbn [offset prodN length] in Ho. rewrite Nnat.Nat2N.id in Ho. change (N.to_nat (0 * _)) with 0%nat in Ho.
  unfold gather_one_code. cbv zeta. change (N.to_nat 0) with 0%nat. rewrite Nat.sub_0_r, Ho. cbn [obind].
  unfold twf in Hx. unfold reshape_flat. cbn [prodN]. replace (N.of_nat (length (tdata x)) =? prodN (tshape x) * 1) with true by lia.
  cbn [obind tdata]. rewrite N.mul_1_r, N.add_0_l. pose proof (offset_lt _ _ Hvt) as Hlt.
  unfold select_flat. cbn [mapo]. rewrite as_i32_small by lia.
  replace (Z.of_N (offset (tshape x) t) <? 0)%Z with false by lia. unfold get in Hz.
  replace (Z.to_nat (Z.of_N (offset (tshape x) t))) with (N.to_nat (offset (tshape x) t)) by lia.
  destruct (nth_error (tdata x) (N.to_nat (offset (tshape x) t))); [|discriminate Hz]. injection Hz as <-. split; reflexivity.
Qed.

(** * ScatterND *)
Lemma reduce_combine d red a v r : reduce_elt d red a v = Some r -> combine_elt d red a v = Some r.
Proof.
  destruct red; cbn [reduce_elt combine_elt].
  - auto.
  - apply onnx_burn.
  - apply onnx_burn.
  - unfold onnx_elt, burn_elt. destruct a as [a|a|a], v as [v|v|v]; try discriminate.
    + cbn [int_op burn_int BinOps_Spec.fits]. destruct (int_range d) as [[lo hi]|]; [|intros H; discriminate H]. destruct (_ && _)%bool; [|intros H; discriminate H].
      intros H. injection H as <-. destruct (Z.leb_spec a v); f_equal; f_equal; lia.
    + destruct (float_format d) as [[p e]|]; [|intros H; discriminate H]. cbn [float_op burn_float]. unfold SFleb.
      destruct (SFcompare a v) as [[]|]; cbn [BinOps_Spec.fits]; try discriminate; try (intros H; exact H).
      destruct (same_float a v) as [->|]; [intros H; exact H|discriminate].
  - unfold onnx_elt, burn_elt. destruct a as [a|a|a], v as [v|v|v]; try discriminate.
    + cbn [int_op burn_int BinOps_Spec.fits]. destruct (int_range d) as [[lo hi]|]; [|intros H; discriminate H]. destruct (_ && _)%bool; [|intros H; discriminate H].
      intros H. injection H as <-. destruct (Z.leb_spec v a); f_equal; f_equal; lia.
    + destruct (float_format d) as [[p e]|]; [|intros H; discriminate H]. cbn [float_op burn_float]. unfold SFleb.
      rewrite (SFcompare_swap a v).
      destruct (SFcompare a v) as [[]|]; cbn [BinOps_Spec.fits option_map CompOpp]; try discriminate; try (intros H; exact H).
      destruct (same_float a v) as [->|]; [intros H; exact H|discriminate].
Qed.

Lemma range_nth {A} (l : list A) from len : (from + len <= N.of_nat (length l)) ->
  exists m, range l from (from + len) = Some m /\ length m = N.to_nat len /\
    forall s, s < len -> nth_error m (N.to_nat s) = nth_error l (N.to_nat (from + s)).
Proof.
  intros H. unfold range. replace ((from <=? from + len) && (from + len <=? N.of_nat (length l))) with true by lia.
  eexists. split; [reflexivity|]. split.
  - rewrite firstn_length, skipn_length. lia.
  - intros s Hs. rewrite nth_error_firstn by lia. rewrite nth_error_skipn. f_equal. lia.
Qed.

Lemma assign_nth (l new : list elt) from : from + N.of_nat (length new) <= N.of_nat (length l) ->
  exists m, assign_flat l from new = Some m /\ length m = length l /\
    forall i, nth_error m (N.to_nat i) =
      if (from <=? i) && (i <? from + N.of_nat (length new)) then nth_error new (N.to_nat (i - from)) else nth_error l (N.to_nat i).
Proof.
  intros H. unfold assign_flat. replace (_ <=? _) with true by lia. eexists. split; [reflexivity|]. 
  assert (Hf : length (firstn (N.to_nat from) l) = N.to_nat from) by (rewrite firstn_length; lia). split.
  - rewrite !app_length, Hf, skipn_length. lia.
  - intros i. destruct ((from <=? i) && (i <? from + N.of_nat (length new))) eqn:E.
    + rewrite nth_error_app2 by lia. rewrite nth_error_app1 by lia. rewrite Hf. f_equal. lia.
    + destruct (N.leb_spec from i).
      * rewrite nth_error_app2 by lia. rewrite nth_error_app2 by lia. rewrite nth_error_skipn, Hf. f_equal. lia.
      * rewrite nth_error_app1 by lia. apply nth_error_firstn. lia.
Qed.

Lemma offset_inj s a b : valid_idx s a -> valid_idx s b -> offset s a = offset s b -> a = b.
Proof. intros Ha Hb E. pose proof (indices_offset _ _ Ha) as H. rewrite E, (indices_offset _ _ Hb) in H. congruence. Qed.

Section Scatter.
  Context (d : dtype) (red : reduction) (ix upd : tensor elt) (vals : list Z) (K S Q : list N) (k : N).
  Context (His : tshape ix = Q ++ [k]) (Hv : as_ints ix = Some vals) (HK : length K = N.to_nat k).
  Context (Hus : tshape upd = Q ++ S) (Huw : twf upd) (HS : prodN S <> 0).
  Context (Hdef : forall u, valid_idx Q u -> exists t, index_tuple ix (K ++ S) u k = Some t).

  Definition spec_step (p : list N) (old : option elt) (u : list N) : option elt :=
    match old, index_tuple ix (K ++ S) u k with
    | Some a, Some t =>
        if list_eq_dec N.eq_dec t (firstn (N.to_nat k) p)
        then match get upd (u ++ skipn (N.to_nat k) p) with Some v => reduce_elt d red a v | None => None end
        else Some a
    | _, _ => None
    end.
  Definition code_step (acc : option (list elt)) (i : N) : option (list elt) :=
    obind acc (fun out =>
      obind (tuple_offset vals (K ++ S) 0 (N.to_nat (i * k)) (N.to_nat k) 0) (fun o =>
      obind (narrow_flat (tdata upd) (i * prodN S) (prodN S)) (fun new =>
      obind (narrow_flat out o (prodN S)) (fun old =>
      obind (mapo (fun on => combine_elt d red (fst on) (snd on)) (combine old new)) (fun res =>
        assign_flat out o res))))).

  Lemma spec_none p us : fold_left (spec_step p) us None = None.
  Proof. induction us as [|u us IH]; [reflexivity|exact IH]. Qed.

  Lemma one_update u out : valid_idx Q u -> N.of_nat (length out) = prodN (K ++ S) ->
    (forall p, valid_idx (K ++ S) p -> spec_step p (nth_error out (N.to_nat (offset (K ++ S) p))) u <> None) ->
    exists out', code_step (Some out) (offset Q u) = Some out' /\ length out' = length out /\
      forall p, valid_idx (K ++ S) p ->
        nth_error out' (N.to_nat (offset (K ++ S) p)) = spec_step p (nth_error out (N.to_nat (offset (K ++ S) p))) u.
  Proof.
    intros Hu Hlen Hall. destruct (Hdef u Hu) as [t Ht].
    destruct (tuple_offset_ok ix vals Q k u (K ++ S) [] (K ++ S) K S t 0 His (valid_length _ _ Hu) Hv eq_refl eq_refl HK Ht) as [Ho Hvt].
    cbn [length] in Ho. rewrite N.add_0_l in Ho. set (o := offset K t * prodN S) in *.
    pose proof (offset_lt _ _ Hvt) as HltK. pose proof (offset_lt _ _ Hu) as HltQ.
    assert (Hob : o + prodN S <= prodN (K ++ S)) by (rewrite prodN_app; unfold o; nia).
    unfold twf in Huw. rewrite Hus, prodN_app in Huw.
    assert (Hub : offset Q u * prodN S + prodN S <= N.of_nat (length (tdata upd))) by nia.
    destruct (range_nth (tdata upd) _ _ Hub) as (new & Hnew & Hnl & Hnn).
    destruct (range_nth out o (prodN S)) as (old & Hold & Hol & Hon); [lia|].
    unfold code_step. cbn [obind]. rewrite Ho. cbn [obind]. unfold narrow_flat. replace (prodN S =? 0) with false by lia.
    rewrite Hnew, Hold. cbn [obind].
    assert (Hkt : length t = N.to_nat k) by (rewrite (valid_length _ _ Hvt); exact HK).
    (* the element updated at [t ++ s] *)
    assert (Hel : forall s, valid_idx S s -> exists a v r, nth_error old (N.to_nat (offset S s)) = Some a /\ nth_error new (N.to_nat (offset S s)) = Some v
       /\ reduce_elt d red a v = Some r /\ spec_step (t ++ s) (nth_error out (N.to_nat (o + offset S s))) u = Some r).
    { intros s Hs. pose proof (offset_lt _ _ Hs) as Hlt.
      assert (Hp : valid_idx (K ++ S) (t ++ s)) by (apply valid_app; assumption).
      specialize (Hall _ Hp). rewrite offset_app in Hall by (apply valid_length; exact Hvt). fold o in Hall.
      unfold spec_step in Hall |- *. rewrite Ht in Hall |- *.
      rewrite (firstn_app_exact' _ t s Hkt), (skipn_app_exact' _ t s Hkt) in Hall |- *.
      rewrite Hon, Hnn by lia. 
      destruct (nth_error out (N.to_nat (o + offset S s))) as [a|] eqn:Ea; [|elim Hall; reflexivity].
      destruct (list_eq_dec N.eq_dec t t) as [_|n]; [|elim n; reflexivity].
      unfold get in Hall |- *. rewrite Hus, offset_app in Hall |- * by (apply valid_length; exact Hu).
      destruct (nth_error (tdata upd) _) as [v|] eqn:Ev; [|elim Hall; reflexivity].
      destruct (reduce_elt d red a v) as [r|] eqn:Er; [|elim Hall; reflexivity].
      exists a, v, r. repeat split; auto. }
    assert (Hres : exists res, mapo (fun on => combine_elt d red (fst on) (snd on)) (combine old new) = Some res).
    { apply mapo_Some. intros [a v] Hin. apply In_nth_error in Hin. destruct Hin as [m Hm].
      assert (Hml : (m < N.to_nat (prodN S))%nat).
      { assert (m < length (combine old new))%nat by (apply nth_error_Some; congruence). rewrite combine_length in *. lia. }
      destruct (offset_surj S m Hml) as (s & Hs & Hso).
      destruct (Hel s Hs) as (a' & v' & r & Ha & Hv' & Hr & _). rewrite Hso in Ha, Hv'.
      rewrite (combine_nth_error _ _ _ _ _ Ha Hv') in Hm. injection Hm as <- <-.
      exists r. apply reduce_combine. exact Hr. }
    destruct Hres as [res Hres]. rewrite Hres. cbn [obind].
    assert (Hrl : length res = N.to_nat (prodN S)) by (rewrite (mapo_length _ _ _ Hres), combine_length; lia).
    destruct (assign_nth out res o) as (out' & Has & Hl' & Hn'); [lia|].
    exists out'. split; [exact Has|]. split; [exact Hl'|]. intros p Hp. rewrite Hn', Hrl.
    destruct (valid_split _ _ _ Hp) as [Hpt Hps]. rewrite HK in Hpt, Hps.
    set (pt := firstn (N.to_nat k) p) in *. set (ps := skipn (N.to_nat k) p) in *.
    assert (Hpp : p = pt ++ ps) by (symmetry; apply firstn_skipn).
    pose proof (offset_lt _ _ Hps) as Hltp.
    assert (Hpo : offset (K ++ S) p = offset K pt * prodN S + offset S ps) by (rewrite Hpp at 1; apply offset_app; apply valid_length; exact Hpt).
    destruct (list_eq_dec N.eq_dec t pt) as [Heq|Hne].
    - assert (Hop : offset (K ++ S) p = o + offset S ps) by (rewrite Hpo, <- Heq; reflexivity).
      rewrite Hop. replace (_ && _) with true by lia.
      destruct (Hel ps Hps) as (a & v & r & Ha & Hv' & Hr & Hsp).
      assert (Hpt' : p = t ++ ps) by congruence. rewrite Hpt'. rewrite Hsp.
      replace (o + offset S ps - o) with (offset S ps) by lia.
      rewrite (mapo_nth _ _ _ _ _ Hres (combine_nth_error _ _ _ _ _ Ha Hv')). cbn [fst snd]. apply reduce_combine. exact Hr.
    - assert (Hoff : offset K t <> offset K pt) by (intros E; apply Hne; exact (offset_inj _ _ _ Hvt Hpt E)).
      replace (_ && _) with false by (unfold o; rewrite Hpo; nia).
      unfold spec_step. rewrite Ht. fold pt. destruct (nth_error out (N.to_nat (offset (K ++ S) p))) as [a|] eqn:Ea.
      + destruct (list_eq_dec N.eq_dec t pt); [contradiction|reflexivity].
      + reflexivity.
  Qed.

  Lemma all_updates : forall us out, Forall (valid_idx Q) us -> N.of_nat (length out) = prodN (K ++ S) ->
    (forall p, valid_idx (K ++ S) p -> fold_left (spec_step p) us (nth_error out (N.to_nat (offset (K ++ S) p))) <> None) ->
    exists out', fold_left code_step (map (offset Q) us) (Some out) = Some out' /\ length out' = length out /\
      forall p, valid_idx (K ++ S) p ->
        nth_error out' (N.to_nat (offset (K ++ S) p)) = fold_left (spec_step p) us (nth_error out (N.to_nat (offset (K ++ S) p))).
  Proof.
    induction us as [|u us IH]; intros out Hf Hl Hall.
    - exists out. split; [reflexivity|]. split; [reflexivity|]. intros p _. reflexivity.
    - inversion Hf as [|u' us' Hu Hf']; subst. destruct (one_update u out Hu Hl) as (out1 & H1 & Hl1 & Hn1).
      { intros p Hp E. apply (Hall p Hp). cbn [fold_left]. rewrite E. apply spec_none. }
      destruct (IH out1 Hf') as (out' & H' & Hl' & Hn').
      { lia. }
      { intros p Hp. rewrite (Hn1 p Hp). exact (Hall p Hp). }
      exists out'. cbn [map fold_left]. rewrite H1. split; [exact H'|]. split; [lia|]. intros p Hp. rewrite (Hn' p Hp), (Hn1 p Hp). reflexivity.
  Qed.
End Scatter.

Lemma scatter_nd_ok d red x ix upd vals z :
  twf x -> twf upd -> prodN (tshape x) <> 0 -> scatter_nd d red x ix upd = Some z -> as_ints ix = Some vals ->
  scatter_code d red x (tshape ix) vals upd = Some z.
Proof.
  intros Hx Hu Hne Hz Hv. unfold scatter_nd in Hz. cbv zeta in Hz.
  destruct (tuples_ok ix (tshape x)) eqn:Hok; [|rewrite andb_false_r in Hz; discriminate Hz].
  pose proof (tuples_ok_all _ _ Hok) as Hdef. clear Hok. rewrite andb_true_r in Hz.
  set (k := tuple_size ix) in *. set (Q := tuple_places ix) in *.
  destruct (negb (length (tshape ix) =? 0)%nat && negb (length (tshape x) =? 0)%nat && (1 <=? k) && (k <=? N.of_nat (length (tshape x)))) eqn:E; [|discriminate Hz].
  cbn [andb] in Hz.
  destruct (list_eq_dec N.eq_dec (tshape upd) (Q ++ skipn (N.to_nat k) (tshape x))) as [Hus|]; [|discriminate Hz].
  assert (His : tshape ix = Q ++ [k]) by (apply last_shape; intros H0; rewrite H0 in E; cbn in E; lia).
  assert (Hq : length (tshape ix) = S (length Q)) by (rewrite His, app_length; cbn; lia).
  set (K := firstn (N.to_nat k) (tshape x)). set (S := skipn (N.to_nat k) (tshape x)) in *.
  assert (HKl : length K = N.to_nat k) by (unfold K; rewrite firstn_length; lia).
  assert (Hd : tshape x = K ++ S) by (symmetry; apply firstn_skipn).
  rewrite Hd in Hne. rewrite prodN_app in Hne.
  destruct (tab_wf _ _ _ Hz) as [Hzw Hzs].
  unfold scatter_code. cbv zeta. replace (length (tshape ix) - 1)%nat with (length Q) by lia.
  assert (Hk : nth_error (tshape ix) (length Q) = Some k) by (rewrite His, nth_error_app2, Nat.sub_diag by lia; reflexivity).
  rewrite Hk. cbn [obind]. fold S.
  assert (Hslice : (if k <? N.of_nat (length (tshape x)) then prodN S else 1) = prodN S).
  { destruct (k <? N.of_nat (length (tshape x))) eqn:E1; [reflexivity|]. unfold S. rewrite skipn_all2 by lia. reflexivity. }
  rewrite Hslice. replace (firstn (length Q) (tshape ix)) with Q by (rewrite His; symmetry; apply firstn_app_exact).
  unfold twf in Hx, Hu, Hzw. unfold reshape_flat at 1. cbn [prodN]. replace (N.of_nat (length (tdata x)) =? prodN (tshape x) * 1) with true by lia. cbn [obind].
  unfold reshape_flat at 1. cbn [prodN]. rewrite Hus, prodN_app in Hu. replace (N.of_nat (length (tdata upd)) =? prodN Q * prodN S * 1) with true by lia. cbn [obind tdata].
  unfold tab in Hz. destruct (mapo _ (indices (tshape x))) as [zl|] eqn:Ez in Hz; [|discriminate Hz]. injection Hz as <-. cbn [tshape tdata] in *.
  destruct (all_updates d red ix upd vals K S Q k His Hv HKl Hus) with (us := indices Q) (out := tdata x) as (out' & Hf & Hlo & Hn).
  { unfold twf. rewrite Hus, prodN_app. lia. }
  { nia. }
  { intros u Hu'. destruct (Hdef u Hu') as [t Ht]. exists t. rewrite <- Hd. exact Ht. }
  { apply Forall_forall. intros u Hi. apply indices_In. exact Hi. }
  { rewrite <- Hd. lia. }
  { intros p Hp. rewrite <- Hd in Hp. destruct (mapo_In _ _ _ p Ez (proj2 (indices_In _ _) Hp)) as [y H].
    intros E0. rewrite <- Hd in E0. unfold spec_step in E0. rewrite <- Hd in E0. assert (X : None = Some y) by (rewrite <- H; symmetry; exact E0). discriminate X. }
  rewrite offsets_upto in Hf. unfold code_step in Hf. rewrite <- Hd in Hf, Hn. rewrite Hf. cbn [obind].
  assert (Hout : out' = zl).
  { apply nth_error_ext. intros i. destruct (Nat.lt_ge_cases i (length out')) as [Hi|Hi].
    - destruct (offset_surj (tshape x) i) as (p & Hp & Hpo); [lia|].
      pose proof (Hn p Hp) as H. rewrite Hpo in H. rewrite H.
      assert (Hin : nth_error (indices (tshape x)) i = Some p) by (rewrite <- Hpo; apply indices_offset; exact Hp).
      rewrite (mapo_nth _ _ _ _ _ Ez Hin). unfold spec_step. rewrite <- Hd, <- Hpo. reflexivity.
    - rewrite (proj2 (nth_error_None out' i) Hi). symmetry. apply nth_error_None. lia. }
  unfold reshape_flat. replace (N.of_nat (length out') =? prodN (tshape x)) with true by lia. rewrite Hout. reflexivity.
Qed.

(** * Nodes *)
Lemma mapo_In_rev {A B} (f : A -> option B) : forall l l' y, mapo f l = Some l' -> In y l' -> exists x, In x l /\ f x = Some y.
Proof.
  induction l as [|a l IH]; intros l' y H Hy; cbn in H; [injection H as <-; destruct Hy|].
  destruct (f a) eqn:E; [|discriminate H]. destruct (mapo f l) eqn:E'; [|discriminate H]. injection H as <-.
  destruct Hy as [<- | Hy]; [exists a; split; [left; reflexivity|exact E]|].
  destruct (IH _ _ eq_refl Hy) as (x & Hx & Hf). exists x. split; [right; exact Hx|exact Hf].
Qed.
Lemma gather_nd_in_dtype d b x ix z : Forall (in_dtype d) (tdata x) -> gather_nd b x ix = Some z -> Forall (in_dtype d) (tdata z).
Proof.
  intros F H. unfold gather_nd in H. cbv zeta in H. destruct (_ && _) in H; [|discriminate H]. unfold tab in H.
  destruct (mapo _ _) as [l|] eqn:E in H; [|discriminate H]. injection H as <-. cbn [tdata].
  apply Forall_forall. intros y Hy. destruct (mapo_In_rev _ _ _ _ E Hy) as (idx & _ & Hi).
  destruct (index_tuple _ _ _ _); [|discriminate Hi]. unfold get in Hi. apply nth_error_In in Hi. rewrite Forall_forall in F. auto.
Qed.
Lemma reduce_in_dtype d red a v r : in_dtype d a -> in_dtype d v -> reduce_elt d red a v = Some r -> in_dtype d r.
Proof.
  intros Ha Hv. destruct red; cbn [reduce_elt]; intros H; try (injection H as <-; exact Hv); exact (onnx_elt_in_dtype _ _ _ _ _ Ha H).
Qed.
Lemma scatter_nd_in_dtype d red x ix upd z : Forall (in_dtype d) (tdata x) -> Forall (in_dtype d) (tdata upd) ->
  scatter_nd d red x ix upd = Some z -> Forall (in_dtype d) (tdata z).
Proof.
  intros F F' H. unfold scatter_nd in H. cbv zeta in H. destruct (_ && _) in H; [|discriminate H]. unfold tab in H.
  destruct (mapo _ _) as [l|] eqn:E in H; [|discriminate H]. injection H as <-. cbn [tdata].
  apply Forall_forall. intros y Hy. destruct (mapo_In_rev _ _ _ _ E Hy) as (p & _ & Hi). clear E Hy.
  assert (G : forall us old, (forall a, old = Some a -> in_dtype d a) -> forall y,
    fold_left (fun old u => match old, index_tuple ix (tshape x) u (tuple_size ix) with
       | Some a, Some t => if list_eq_dec N.eq_dec t (firstn (N.to_nat (tuple_size ix)) p)
           then match get upd (u ++ skipn (N.to_nat (tuple_size ix)) p) with Some v => reduce_elt d red a v | None => None end else Some a
       | _, _ => None end) us old = Some y -> in_dtype d y).
  { induction us as [|u us IH]; intros old Ho w Hw; [exact (Ho w Hw)|]. cbn [fold_left] in Hw. eapply IH; [|exact Hw].
    intros a Ha. destruct old as [a0|]; [|discriminate Ha]. destruct (index_tuple _ _ _ _); [|discriminate Ha].
    destruct (list_eq_dec _ _ _); [|injection Ha as <-; auto].
    destruct (get upd _) eqn:Eg; [|discriminate Ha]. eapply reduce_in_dtype; [exact (Ho _ eq_refl)| |exact Ha].
    unfold get in Eg. apply nth_error_In in Eg. rewrite Forall_forall in F'. auto. }
  eapply G; [|exact Hi]. intros a Ha. unfold get in Ha. apply nth_error_In in Ha. rewrite Forall_forall in F. auto.
Qed.

Lemma as_ints_some ix : Forall (in_dtype I64) (tdata ix) -> exists vals, as_ints ix = Some vals.
Proof.
  intros F. apply mapo_Some. intros y Hy. rewrite Forall_forall in F. destruct (int64_elt y (F y Hy)) as [z ->]. eexists. reflexivity.
Qed.

Lemma fits_last l s k : fits_dims l s -> l <> [] -> last l None = Some k -> last s 0 = k.
Proof.
  intros F. induction F as [|a b l s Hab F IH]; intros Hne Hl; [contradiction|].
  destruct F as [|a' b' l' s' Hab' F]; [cbn in *; destruct Hab; congruence|]. apply IH; [discriminate|exact Hl].
Qed.

Lemma gather_nd_shape b x ix z : gather_nd b x ix = Some z ->
  twf z /\ tshape z = tuple_places ix ++ skipn (b + N.to_nat (tuple_size ix)) (tshape x) /\
  (b < length (tshape ix))%nat /\ (b < length (tshape x))%nat /\ 1 <= tuple_size ix /\ N.of_nat b + tuple_size ix <= N.of_nat (length (tshape x)).
Proof.
  intros H. unfold gather_nd in H. cbv zeta in H. destruct (_ && _) eqn:E in H; [|discriminate H].
  destruct (tab_wf _ _ _ H) as [W S]. split; [exact W|]. split; [exact S|]. repeat (apply andb_prop in E as [E ?]). lia.
Qed.
Lemma scatter_nd_shape d red x ix upd z : scatter_nd d red x ix upd = Some z ->
  twf z /\ tshape z = tshape x.
Proof.
  intros H. unfold scatter_nd in H. cbv zeta in H. destruct (_ && _) eqn:E in H; [|discriminate H]. exact (tab_wf _ _ _ H).
Qed.

Lemma gathernd_node n e a i o va vi d x ix b z :
  ninputs n = [a; i] -> noutputs n = [o] ->
  e (aname a) = Some va -> stands_for d (aty a) va x -> e (aname i) = Some vi -> stands_for I64 (aty i) vi ix -> Shapes_Spec.fits (aty i) (tshape ix) ->
  int_attr n "batch_dims" 0%Z = Some b -> (0 <= b <= 9223372036854775807)%Z -> gather_nd (Z.to_nat b) x ix = Some z ->
  prodN (tshape x) <= 2147483648 -> infer_gathernd n = IOk (aty o) ->
  exists s v, gen_gathernd n = Some s /\ iexec e s = Some v /\ stands_for d (aty o) v z.
Proof.
  intros Hi Ho Ea Sa Ei Si Hfit Hb Hrange Hz Hsize Hinf.
  unfold infer_gathernd in Hinf. rewrite Hi in Hinf. destruct (aty a) as [| | |t] eqn:Ta; try discriminate Hinf.
  destruct (aty i) as [| | |ti] eqn:Ti; try discriminate Hinf.
  destruct (tensor_value _ _ _ _ Sa) as (-> & Hd & Hr). destruct (tensor_value _ _ _ _ Si) as (-> & _ & Hq).
  destruct Sa as (Wx & Fx & _). destruct Si as (Wi & Fi & _). destruct (as_ints_some _ Fi) as [vals Hv].
  assert (Hbd : batch_dims n = IOk (N.of_nat (Z.to_nat b)) \/ batch_dims n = IErr).
  { unfold batch_dims. destruct (only_attrs _ _); [|auto]. left. unfold int_attr in Hb. destruct (get_attr n "batch_dims") as [[]|]; try discriminate Hb; injection Hb as <-; f_equal.
    - unfold to_usize. rewrite Z.mod_small by lia. lia. }
  destruct Hbd as [Hbd|Hbd]; rewrite Hbd in Hinf; [|discriminate Hinf]. cbn [ibind] in Hinf.
  set (bn := Z.to_nat b) in *.
  destruct (N.min (tt_rank ti) (tt_rank t) <=? N.of_nat bn) eqn:E1; [discriminate Hinf|].
  destruct (tt_shape ti) as [l|] eqn:Tl; [|discriminate Hinf].
  destruct Hfit as [_ Hfit]. specialize (Hfit l Tl).
  assert (Hne : l <> []) by (intros ->; discriminate Hinf).
  destruct l as [|l0 l']; [contradiction|].
  destruct (last (l0 :: l') None) as [k|] eqn:El; [|discriminate Hinf].
  pose proof (fits_last _ _ _ Hfit Hne El) as Hk. fold (tuple_size ix) in Hk.
  destruct (tt_rank t - N.of_nat bn <? k) eqn:E2; [discriminate Hinf|]. injection Hinf as Hty.
  destruct (gather_nd_shape _ _ _ _ Hz) as (Wz & Sz & H1 & H2 & H3 & H4).
  pose proof (gather_nd_in_dtype _ _ _ _ _ Fx Hz) as Fz.
  assert (His : tshape ix = tuple_places ix ++ [tuple_size ix]) by (apply last_shape; intros H0; rewrite H0 in H1; cbn in H1; lia).
  assert (Hql : length (tshape ix) = S (length (tuple_places ix))) by (rewrite His, app_length; cbn; lia).
  assert (Hzl : N.of_nat (length (tshape z)) = tt_rank ti + tt_rank t - k - 1 - N.of_nat bn) by (rewrite Sz, app_length, skipn_length; lia).
  unfold gen_gathernd. rewrite Hi, Ho, Hbd. rewrite <- Hty.
  destruct (tt_rank ti + tt_rank t - k - 1 - N.of_nat bn =? 0) eqn:E3.
  - eexists _, (RTensor (mkT [1] (tdata z))). split; [reflexivity|]. assert (Hb0 : bn = 0%nat) by lia.
    destruct (gather_one_ok x ix vals z (length (tshape x)) Wx) as [Hg Hs0]; [rewrite Hb0 in Hz; exact Hz|exact Hv|exact Hsize|lia|reflexivity|lia|].
    split.
    + cbn [iexec]. unfold tens. rewrite Ea, Ei. cbn [obind]. rewrite Hv. cbn [obind]. rewrite Hb0. change (N.of_nat 0) with 0. rewrite Hg. reflexivity.
    + split; [exact Wz|]. split; [exact Fz|]. split; [exact Hd|]. split; [exact Hs0|reflexivity].
  - eexists _, (RTensor z). split; [reflexivity|]. split.
    + cbn [iexec]. unfold tens. rewrite Ea, Ei. cbn [obind]. rewrite Hv. cbn [obind tt_rank].
      rewrite (gather_nd_ok bn x ix vals z _ Wx Hz Hv Hsize (eq_sym Hzl)). reflexivity.
    + rewrite Hd. apply stands_tensor; [exact Wz|exact Fz|exact Hzl|lia].
Qed.

Lemma scatternd_node n e a i u o va vi vu d x ix upd red z :
  ninputs n = [a; i; u] -> noutputs n = [o] ->
  e (aname a) = Some va -> stands_for d (aty a) va x -> e (aname i) = Some vi -> stands_for I64 (aty i) vi ix ->
  e (aname u) = Some vu -> stands_for d (aty u) vu upd ->
  (exists t, aty a = TensorT t) -> (exists t, aty i = TensorT t) -> (exists t, aty u = TensorT t \/ aty u = ScalarTensor d) ->
  reduction_attr n = Some red -> (d = BoolT -> red = RedNone) -> scatter_nd d red x ix upd = Some z ->
  prodN (tshape x) <> 0 -> only_attrs n ["reduction"%string] = true -> infer_scatternd n = IOk (aty o) ->
  exists s v, gen_scatternd n = Some s /\ iexec e s = Some v /\ stands_for d (aty o) v z.
Proof.
  intros Hi Ho Ea Sa Ei Si Eu Su [t Ta] [ti Ti] [tu Tu] Hred Hbool Hz Hne Honly Hinf.
  unfold infer_scatternd in Hinf. rewrite Hi, Ho, Ta in Hinf. injection Hinf as Hty.
  rewrite Ta in Sa. rewrite Ti in Si.
  destruct (tensor_value _ _ _ _ Sa) as (-> & Hd & Hr). destruct (tensor_value _ _ _ _ Si) as (-> & _ & Hq).
  pose proof Sa as (Wx & Fx & Rx). destruct Si as (Wi & Fi & _). destruct (as_ints_some _ Fi) as [vals Hv].
  destruct (scatter_nd_shape _ _ _ _ _ _ Hz) as [Wz Sz].
  assert (Hup : exists t', vu = RTensor t' /\ tdata t' = tdata upd /\ twf upd /\ Forall (in_dtype d) (tdata upd)).
  { destruct Su as (Wu & Fu & H). destruct Tu as [Tu|Tu]; rewrite Tu in H.
    - destruct vu; try contradiction. destruct H as [-> _]. eauto.
    - destruct vu; try contradiction. destruct H as (_ & _ & ->). eauto. }
  destruct Hup as (t' & -> & Hdata & Wu & Fu).
  pose proof (scatter_nd_in_dtype _ _ _ _ _ _ Fx Fu Hz) as Fz.
  assert (Hr' : scatter_reduction n = IOk red).
  { unfold scatter_reduction. rewrite Honly. unfold reduction_attr, reduction_name in Hred. destruct (get_attr n "reduction") as [[]|]; try discriminate Hred.
    - repeat (destruct (String.eqb _ _); [injection Hred as <-; reflexivity|]). discriminate Hred.
    - injection Hred as <-. reflexivity. }
  assert (Hgen : gen_scatternd n = Some (IScatter d (aname a) (aname i) (aname u) red)).
  { unfold gen_scatternd. rewrite Hi, Ho, Hr', Ta, Hd. destruct d; try reflexivity. rewrite (Hbool eq_refl). reflexivity. }
  exists (IScatter d (aname a) (aname i) (aname u) red), (RTensor z). split; [exact Hgen|]. split.
  - cbn [iexec]. unfold tens. rewrite Ea, Ei, Eu. cbn [obind]. rewrite Hv. cbn [obind].
    pose proof (scatter_nd_ok d red x ix upd vals z Wx Wu Hne Hz Hv) as H. unfold scatter_code in H |- *. rewrite Hdata. rewrite H. reflexivity.
  - rewrite <- Hty. destruct t as [d' r s]. cbn [tt_dtype] in Hd. subst d'. apply stands_tensor; [exact Wz|exact Fz|rewrite Sz; exact Hr|].
    destruct Rx as (_ & _ & _ & R). exact R.
Qed.
