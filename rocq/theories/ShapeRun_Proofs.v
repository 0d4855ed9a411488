(** Lemmas about the code emitted for operators on shapes. *)
From Coq Require Import Lia ZifyBool ZifyNat ZifyN.
From Verif Require Import Tensor_Proofs BinOps_Proofs ShapeOps_Proofs AxisOps_Proofs RankOps_Proofs.
From Verif Require Import ShapeRun_Spec ShapeRun_Model.
Import Tensor_Spec BinOps_Spec RankOps_Spec ShapeRun_Spec.
Local Open Scope Z_scope.

(** ** Arrays *)
Definition conv (d : dtype) (z : Z) : elt := match d with BoolT => EB (z =? 1) | _ => EI z end.
Definition okz (d : dtype) (z : Z) : Prop :=
  match d with I64 => in_dtype I64 (EI z) | BoolT => z = 0 \/ z = 1 | _ => False end.

Lemma array_conv d n v t : stands_for d (ShapeT n) v t ->
  exists l, v = RShape l /\ n = N.of_nat (length l) /\ t = mkT [n] (map (conv d) l) /\ Forall (okz d) l /\ (d = I64 \/ d = BoolT).
Proof.
  intros (W & F & H). destruct v as [| |l]; try contradiction. destruct H as (Hn & [[-> ->]|(-> & -> & B)]); exists l.
  - repeat split; auto. cbn in F. clear -F. induction l; [constructor|]. inversion F. constructor; auto.
  - repeat split; auto.
Qed.
Lemma conv_stands d l : d = I64 \/ d = BoolT -> Forall (okz d) l ->
  stands_for d (ShapeT (N.of_nat (length l))) (RShape l) (mkT [N.of_nat (length l)] (map (conv d) l)).
Proof.
  intros D F. split; [unfold twf; cbn; rewrite map_length; lia|]. split.
  - cbn. destruct D as [-> | ->]; clear -F; induction F as [|z l Hz F IH]; cbn; constructor; auto; cbn; auto.
  - split; [reflexivity|]. destruct D as [-> | ->]; [left|right]; auto.
Qed.

Lemma Forall_sub {A} (P : A -> Prop) l l' : Forall P l -> (forall x, In x l' -> In x l) -> Forall P l'.
Proof. rewrite !Forall_forall. auto. Qed.

(** ** One-dimensional tensors *)
Lemma get_1 {A} n (l : list A) i : get (mkT [n] l) [i] = nth_error l (N.to_nat i).
Proof. unfold get. cbn [tshape tdata offset prodN]. f_equal. lia. Qed.
Lemma tab_1 {A} n (f : list N -> option A) : tab [n] f = option_map (mkT [n]) (mapo (fun i => f [i]) (upto n)).
Proof. unfold tab. rewrite indices_1, mapo_map. reflexivity. Qed.
Lemma tab_0 {A} (f : list N -> option A) : tab [] f = option_map (fun x => mkT [] [x]) (f []).
Proof. unfold tab. cbn. destruct (f []); reflexivity. Qed.
Lemma mapo_each {A B} (g : A -> option B) (l : list A) n : n = N.of_nat (length l) ->
  mapo (fun i => match nth_error l (N.to_nat i) with Some a => g a | None => None end) (upto n) = mapo g l.
Proof.
  intros ->. unfold upto. rewrite mapo_map, Nat2N.id.
  rewrite (mapo_ext _ (fun k => match nth_error l k with Some a => g a | None => None end)) by (intros k _; rewrite Nat2N.id; reflexivity).
  assert (G : forall (l pre : list A),
    mapo (fun k => match nth_error (pre ++ l) k with Some a => g a | None => None end) (seq (length pre) (length l)) = mapo g l).
  { clear. induction l as [|a l IH]; intros pre; cbn; [reflexivity|].
    rewrite nth_error_app2, Nat.sub_diag by lia. cbn. destruct (g a); [|reflexivity].
    specialize (IH (pre ++ [a])). rewrite <- app_assoc, app_length in IH. cbn [app length] in IH.
    rewrite Nat.add_1_r in IH. rewrite IH. reflexivity. }
  exact (G l []).
Qed.
Lemma mapo_id {A} (l : list A) n : n = N.of_nat (length l) -> mapo (fun i => nth_error l (N.to_nat i)) (upto n) = Some l.
Proof.
  intros H. rewrite (mapo_ext _ (fun i => match nth_error l (N.to_nat i) with Some a => Some a | None => None end)).
  - rewrite mapo_each by exact H. clear. induction l as [|a l IH]; cbn; [reflexivity|]. rewrite IH. reflexivity.
  - intros i _. destruct (nth_error l (N.to_nat i)); reflexivity.
Qed.
Lemma position_1 a : position 1 a = 0%nat.
Proof. unfold position. rewrite Z.mod_1_r. reflexivity. Qed.
Lemma as_ints_map l s : as_ints (mkT s (map EI l)) = Some l.
Proof. unfold as_ints. cbn. rewrite mapo_map. induction l as [|a l IH]; cbn; [reflexivity|]. rewrite IH. reflexivity. Qed.

(** ** Gather *)
Lemma index_at_ok l k : (- Z.of_nat (length l) <=? k) && (k <? Z.of_nat (length l)) = true ->
  index_at l k = nth_error l (N.to_nat (Z.to_N (from_end (Z.of_nat (length l)) k))).
Proof.
  intros H. unfold index_at, from_end. destruct (Z.ltb_spec k 0).
  - destruct (Z.ltb_spec (Z.of_nat (length l) + k) 0); [lia|]. f_equal. lia.
  - destruct (Z.ltb_spec k 0); [lia|]. f_equal. lia.
Qed.
Lemma gather_scalar a d l i z :
  onnx_gather a (mkT [N.of_nat (length l)] (map (conv d) l)) (mkT [] [EI i]) = Some z ->
  exists x, index_at l i = Some x /\ In x l /\ z = mkT [] [conv d x].
Proof.
  unfold onnx_gather. cbn [tshape length]. destruct (axis_ok 1 a); [|discriminate].
  rewrite position_1. cbn [firstn skipn app nth]. rewrite tab_0. unfold get at 1. cbn [tshape offset tdata N.to_nat nth_error].
  replace (Z.of_N (N.of_nat (length l))) with (Z.of_nat (length l)) by lia.
  destruct ((- Z.of_nat (length l) <=? i) && (i <? Z.of_nat (length l))) eqn:R; [|discriminate].
  rewrite (get_1 (N.of_nat (length l)) (map (conv d) l)), nth_error_map, <- index_at_ok by exact R.
  destruct (index_at l i) as [x|] eqn:E; [|discriminate]. cbn. intros H. injection H as <-. exists x. repeat split.
  rewrite index_at_ok in E by exact R. eapply nth_error_In; eauto.
Qed.
Lemma gather_array a d l js z m : m = N.of_nat (length js) ->
  onnx_gather a (mkT [N.of_nat (length l)] (map (conv d) l)) (mkT [m] (map EI js)) = Some z ->
  exists xs, mapo (index_at l) js = Some xs /\ Forall (fun x => In x l) xs /\ z = mkT [m] (map (conv d) xs).
Proof.
  intros Hm. unfold onnx_gather. cbn [tshape length]. destruct (axis_ok 1 a); [|discriminate].
  rewrite position_1. cbn [firstn skipn app nth]. rewrite tab_1.
  replace (Z.of_N (N.of_nat (length l))) with (Z.of_nat (length l)) by lia.
  rewrite (mapo_ext _ (fun i => match nth_error js (N.to_nat i) with
     | Some k => option_map (conv d) (if (- Z.of_nat (length l) <=? k) && (k <? Z.of_nat (length l)) then index_at l k else None)
     | None => None end)).
  2:{ intros i _. rewrite get_1, nth_error_map. destruct (nth_error js (N.to_nat i)) as [k|]; cbn; [|reflexivity].
      destruct ((- Z.of_nat (length l) <=? k) && (k <? Z.of_nat (length l))) eqn:R; [|reflexivity].
      rewrite (get_1 (N.of_nat (length l)) (map (conv d) l)), nth_error_map, index_at_ok by exact R. reflexivity. }
  rewrite (mapo_each (fun k => option_map (conv d) (if (- Z.of_nat (length l) <=? k) && (k <? Z.of_nat (length l)) then index_at l k else None)) js) by exact Hm.
  destruct (mapo _ js) as [r|] eqn:E; [|discriminate]. cbn. intros H. injection H as <-.
  enough (G : exists xs, mapo (index_at l) js = Some xs /\ Forall (fun x => In x l) xs /\ r = map (conv d) xs).
  { destruct G as (xs & H1 & H2 & ->). exists xs. auto. }
  clear Hm. revert r E. induction js as [|k js IH]; intros r E; cbn in *.
  - injection E as <-. exists []. auto.
  - destruct ((- Z.of_nat (length l) <=? k) && (k <? Z.of_nat (length l))) eqn:R; [|discriminate].
    destruct (index_at l k) as [x|] eqn:Ex; [|discriminate]. cbn in E.
    destruct (mapo _ js) as [r'|] in E, IH; [|discriminate]. injection E as <-.
    destruct (IH r' eq_refl) as (xs & -> & F & ->). exists (x :: xs). cbn. repeat split; auto. constructor; [|exact F].
    rewrite index_at_ok in Ex by exact R. eapply nth_error_In; eauto.
Qed.

(** ** Concat *)
Lemma part_at_1 : forall (ts : list (tensor elt)) k, Forall (fun t => twf t /\ exists m, tshape t = [m]) ts ->
  match part_at 0 k ts with Some (t, j) => get t [j] | None => None end = nth_error (concat (map tdata ts)) (N.to_nat k).
Proof.
  induction ts as [|t ts IH]; intros k F; cbn; [destruct (N.to_nat k); reflexivity|].
  inversion F as [|? ? [W (m & Hs)] F']. subst. destruct t as [s l]. cbn in Hs. subst s. unfold twf in W. cbn in W |- *.
  destruct (N.ltb_spec k m).
  - rewrite get_1. rewrite nth_error_app1 by lia. reflexivity.
  - rewrite IH by exact F'. rewrite nth_error_app2 by lia. f_equal. lia.
Qed.
Lemma concat_1 a (ts : list (tensor elt)) z : Forall (fun t => twf t /\ exists m, tshape t = [m]) ts ->
  onnx_concat a ts z -> z = mkT [N.of_nat (length (concat (map tdata ts)))] (concat (map tdata ts)).
Proof.
  intros F (s & Ha & (Hne & Hlt & Hs & Ht) & Hz).
  assert (L : length s = 1%nat).
  { destruct ts as [|t ts]; [contradiction Hne; reflexivity|]. inversion F as [|? ? [_ (m & Hm)] _]. subst.
    destruct (Hs (tshape t) (or_introl eq_refl)) as [E _]. rewrite Hm in E. cbn in E. lia. }
  rewrite L in *. rewrite position_1 in *. destruct s as [|m [|? ?]]; try discriminate L.
  cbn in Ht. injection Ht as Hm. rewrite map_map in Hm.
  assert (Hm' : m = N.of_nat (length (concat (map tdata ts)))).
  { rewrite Hm. clear -F. induction F as [|t ts [W (m & Hs)] F IH]; [reflexivity|]. unfold total in *. cbn [map concat fold_right].
    rewrite app_length, IH.
    destruct t as [s l]. cbn in *. subst s. unfold twf in W. cbn in W |- *. lia. }
  rewrite tab_1 in Hz. rewrite (mapo_ext _ (fun i => nth_error (concat (map tdata ts)) (N.to_nat i))) in Hz.
  - rewrite mapo_id in Hz by exact Hm'. cbn in Hz. injection Hz as <-. rewrite <- Hm'. reflexivity.
  - intros i _. cbn [nth firstn skipn app]. rewrite part_at_1 by exact F. reflexivity.
Qed.

(** ** Slice *)
Lemma mapo_all_in {A} (l : list A) js : (forall j, In j js -> (N.to_nat j < length l)%nat) ->
  exists r, mapo (fun j => nth_error l (N.to_nat j)) js = Some r.
Proof.
  induction js as [|j js IH]; intros H; cbn; [eauto|].
  destruct (nth_error l (N.to_nat j)) as [x|] eqn:E.
  - destruct IH as (r & ->); [intros; apply H; right; assumption|]. eauto.
  - apply nth_error_None in E. specialize (H j (or_introl eq_refl)). lia.
Qed.
Lemma mapo_compose {A B C} (f : A -> option B) (g : B -> option C) l l' : mapo f l = Some l' ->
  mapo (fun x => match f x with Some y => g y | None => None end) l = mapo g l'.
Proof.
  revert l'. induction l as [|x l IH]; intros l' H; cbn in *; [injection H as <-; reflexivity|].
  destruct (f x) as [y|]; [|discriminate]. destruct (mapo f l) as [ys|]; [|discriminate]. injection H as <-.
  cbn. rewrite (IH ys eq_refl). reflexivity.
Qed.
Lemma slice_1 c n (l : list elt) z : position 1 (c_axis c) = 0%nat -> onnx_slice [c] (mkT [n] l) = Some z ->
  exists r, mapo (fun j => nth_error l (N.to_nat j)) (kept n (Some c)) = Some r /\ z = mkT [N.of_nat (length r)] r.
Proof.
  intros Hp. unfold onnx_slice, cut_at. cbn [tshape length seq combine map fst snd find]. rewrite Hp. cbn [Nat.eqb].
  set (ks := kept n (Some c)). clearbody ks. rewrite tab_1.
  rewrite (mapo_ext _ (fun i => match nth_error ks (N.to_nat i) with Some j => nth_error l (N.to_nat j) | None => None end)).
  - rewrite (mapo_each (fun j => nth_error l (N.to_nat j))) by reflexivity.
    destruct (mapo _ ks) as [r|] eqn:E; [|discriminate]. cbn. intros H. injection H as <-.
    exists r. rewrite (mapo_length _ _ _ E). auto.
  - intros i _. cbn. destruct (nth_error ks (N.to_nat i)) as [j|]; [|reflexivity]. rewrite get_1. reflexivity.
Qed.

Lemma every_filter {A} (k : nat) : (0 < k)%nat -> forall (l : list A) skip pos a, (skip < k)%nat ->
  Z.of_nat pos + Z.of_nat skip = a -> 
  forall f, (forall i, Z.of_nat pos <= Z.of_nat i < Z.of_nat pos + Z.of_nat (length l) ->
             f i = ((Z.of_nat i - a) mod Z.of_nat k =? 0)) ->
  every k skip l = map snd (filter (fun ix => f (fst ix)) (combine (seq pos (length l)) l)).
Proof.
  intros Hk l. induction l as [|x l IH]; intros skip pos a Hs Ha f Hf; [reflexivity|].
  cbn [every length seq combine filter fst]. rewrite (Hf pos) by (cbn [length]; lia).
  destruct skip as [|j].
  - replace (Z.of_nat pos - a) with 0 by lia. rewrite Z.mod_0_l by lia. cbn [Z.eqb map snd]. f_equal.
    apply IH with (a := a + Z.of_nat k); [lia|lia|]. intros i Hi. rewrite Hf by (cbn [length]; lia).
    replace (Z.of_nat i - a) with (Z.of_nat i - (a + Z.of_nat k) + 1 * Z.of_nat k) by lia. rewrite Z_mod_plus_full. reflexivity.
  - assert (E : (Z.of_nat pos - a) mod Z.of_nat k <> 0).
    { replace (Z.of_nat pos - a) with (- Z.of_nat (S j)) by lia. rewrite Z.mod_opp_l_nz; rewrite ?Z.mod_small; lia. }
    destruct (Z.eqb_spec ((Z.of_nat pos - a) mod Z.of_nat k) 0); [contradiction|].
    apply IH with (a := a); [lia|lia|]. intros i Hi. apply Hf. cbn [length]. lia.
Qed.
Lemma filter_seq_nth {A} (f : nat -> bool) : forall (l pre : list A),
  mapo (fun j => nth_error (pre ++ l) j) (filter f (seq (length pre) (length l))) =
  Some (map snd (filter (fun ix => f (fst ix)) (combine (seq (length pre) (length l)) l))).
Proof.
  induction l as [|x l IH]; intros pre; [reflexivity|]. cbn [length seq filter combine fst].
  specialize (IH (pre ++ [x])). rewrite <- app_assoc, app_length in IH. cbn [app length] in IH. rewrite Nat.add_1_r in IH.
  destruct (f (length pre)); [|exact IH].
  cbn [mapo map snd]. rewrite nth_error_app2, Nat.sub_diag by lia. cbn [nth_error]. rewrite IH. reflexivity.
Qed.
Lemma upto_filter (f : N -> bool) n : filter f (upto n) = map N.of_nat (filter (fun i => f (N.of_nat i)) (seq 0 (N.to_nat n))).
Proof. unfold upto. induction (seq 0 (N.to_nat n)) as [|i l IH]; cbn; [reflexivity|]. rewrite IH. destruct (f (N.of_nat i)); reflexivity. Qed.

Lemma combine_seq_app {A} (l l' : list A) p : combine (seq p (length (l ++ l'))) (l ++ l') =
  combine (seq p (length l)) l ++ combine (seq (p + length l) (length l')) l'.
Proof.
  revert p. induction l as [|x l IH]; intros p; cbn; [rewrite Nat.add_0_r; reflexivity|].
  rewrite IH. replace (p + S (length l))%nat with (S p + length l)%nat by lia. reflexivity.
Qed.
Lemma filter_combine_none {A} (f : nat -> bool) (l : list A) p : (forall i, (p <= i < p + length l)%nat -> f i = false) ->
  filter (fun ix => f (fst ix)) (combine (seq p (length l)) l) = [].
Proof.
  intros H. apply filter_none. intros [i x] Hi. apply in_combine_l in Hi. apply in_seq in Hi. cbn [fst]. apply H. lia.
Qed.

(** The kept elements, forwards. *)
Lemma kept_every {A} (l : list A) c : 0 < c_step c ->
  let n := Z.of_nat (length l) in
  let a := clamp 0 n (from_end n (c_start c)) in let b := clamp 0 n (from_end n (c_stop c)) in a <= b ->
  mapo (fun j => nth_error l (N.to_nat j)) (kept (N.of_nat (length l)) (Some c)) =
  Some (every (Z.to_nat (c_step c)) 0 (firstn (Z.to_nat (b - a)) (skipn (Z.to_nat a) l))).
Proof.
  intros Hs n a b Hab. unfold kept. destruct (Z.ltb_spec 0 (c_step c)); [|lia].
  rewrite upto_filter, mapo_map, Nat2N.id.
  rewrite (mapo_ext _ (fun j => nth_error l j)) by (intros; rewrite Nat2N.id; reflexivity).
  set (f := fun i => taken (Z.of_N (N.of_nat (length l))) (c_start c) (c_stop c) (c_step c) (Z.of_N (N.of_nat i))).
  assert (Ef : forall i, f i = ((a <=? Z.of_nat i) && (Z.of_nat i <? b) && ((Z.of_nat i - a) mod c_step c =? 0))%bool).
  { intros i. unfold f, taken. destruct (Z.ltb_spec 0 (c_step c)); [|lia].
    replace (Z.of_N (N.of_nat (length l))) with n by (unfold n; lia).
    replace (Z.of_N (N.of_nat i)) with (Z.of_nat i) by lia. reflexivity. }
  assert (Ha : 0 <= a <= n) by (unfold a, clamp, n; lia). assert (Hb : 0 <= b <= n) by (unfold b, clamp, n; lia).
  clearbody a b f. subst n.
  pose proof (filter_seq_nth f l []) as G. cbn [app length] in G. rewrite G. clear G. f_equal.
  set (na := Z.to_nat a). set (nb := Z.to_nat (b - a)).
  assert (El : l = firstn na l ++ (firstn nb (skipn na l) ++ skipn nb (skipn na l))) by (rewrite !firstn_skipn; reflexivity).
  assert (L1 : length (firstn na l) = na) by (rewrite firstn_length; lia).
  assert (L2 : length (firstn nb (skipn na l)) = nb) by (rewrite firstn_length, skipn_length; lia).
  set (l1 := firstn na l) in *. set (l2 := firstn nb (skipn na l)) in *. set (l3 := skipn nb (skipn na l)) in *.
  rewrite El at 1 2. rewrite !combine_seq_app, !filter_app, !map_app.
  rewrite (filter_combine_none f l1) by (intros i Hi; rewrite Ef; lia).
  rewrite (filter_combine_none f l3) by (intros i Hi; rewrite Ef; lia).
  cbn [map app]. rewrite app_nil_r. rewrite L1, Nat.add_0_l. symmetry.
  apply every_filter with (a := a); [lia|lia|lia|]. intros i Hi. rewrite Ef. rewrite L2 in Hi.
  replace (Z.of_nat (Z.to_nat (c_step c))) with (c_step c) by lia.
  destruct ((Z.of_nat i - a) mod c_step c =? 0); lia.
Qed.
Lemma every_1 {A} (l : list A) : every 1 0 l = l.
Proof. induction l as [|x l IH]; cbn; [reflexivity|]. rewrite IH. reflexivity. Qed.
Lemma every_map {A B} (g : A -> B) k : forall l s, every k s (map g l) = map g (every k s l).
Proof. induction l as [|x l IH]; intros s; cbn; [reflexivity|]. destruct s; cbn; rewrite IH; reflexivity. Qed.
Lemma every_In {A} k (l : list A) : forall s x, In x (every k s l) -> In x l.
Proof. induction l as [|y l IH]; intros s x; cbn; [auto|]. destruct s; cbn; intros H; [destruct H as [->|H]|]; eauto. Qed.
Lemma firstn_In {A} n (l : list A) x : In x (firstn n l) -> In x l.
Proof. intros H. rewrite <- (firstn_skipn n l). apply in_or_app. auto. Qed.
Lemma skipn_In {A} n (l : list A) x : In x (skipn n l) -> In x l.
Proof. intros H. rewrite <- (firstn_skipn n l). apply in_or_app. auto. Qed.

(** ** Where *)
Lemma mapo_three (cd : Z -> elt) : forall (cs xs ys : list Z) pc px py r,
  length cs = length xs -> length xs = length ys -> length pc = length px -> length px = length py -> Forall (okz BoolT) cs ->
  mapo (fun k => match nth_error (map (conv BoolT) (pc ++ cs)) k with
                 | Some (EB true) => nth_error (map cd (px ++ xs)) k
                 | Some (EB false) => nth_error (map cd (py ++ ys)) k
                 | _ => None end) (seq (length pc) (length cs)) = Some r ->
  exists zs, where_items cs xs ys = Some zs /\ r = map cd zs /\ length zs = length ys /\ forall z, In z zs -> In z xs \/ In z ys.
Proof.
  induction cs as [|c cs IH]; intros [|x xs] [|y ys] pc px py r H1 H2 H3 H4 F; cbn [length] in *; try lia.
  - intros H. injection H as <-. exists []. cbn. auto.
  - inversion F as [|? ? Hc F']. subst. cbn [seq mapo].
    rewrite !map_app, !nth_error_app2, !map_length, Nat.sub_diag by (rewrite map_length; lia).
    replace (length pc - length px)%nat with 0%nat by lia. replace (length pc - length py)%nat with 0%nat by lia.
    cbn [map nth_error conv].
    specialize (IH xs ys (pc ++ [c]) (px ++ [x]) (py ++ [y])). rewrite <- !app_assoc, !app_length in IH. cbn [app length] in IH.
    rewrite !map_app in IH. cbn [map conv] in IH.
    replace (length pc + 1)%nat with (S (length pc)) in IH by lia.
    assert (E : (c =? 0) = negb (c =? 1)) by (destruct Hc as [-> | ->]; reflexivity).
    cbn [where_items]. rewrite E. destruct (c =? 1); cbn [negb];
      (intros H; destruct (mapo _ (seq (S (length pc)) (length cs))) as [r'|] in IH, H; cbv iota beta in H; [|discriminate H]; injection H as <-;
       destruct (IH r') as (zs & -> & -> & L & I); try lia; auto; eexists; cbn; split; [reflexivity|];
       split; [reflexivity|]; split; [cbn [length]; lia|]; intros z [->|Hz]; auto; destruct (I z Hz); auto).
Qed.
Lemma where_1 d n cs xs ys z : n = N.of_nat (length cs) -> length cs = length xs -> length xs = length ys -> Forall (okz BoolT) cs ->
  onnx_where (mkT [n] (map (conv BoolT) cs)) (mkT [n] (map (conv d) xs)) (mkT [n] (map (conv d) ys)) = Some z ->
  exists zs, where_items cs xs ys = Some zs /\ z = mkT [n] (map (conv d) zs) /\ length zs = length ys /\ forall z, In z zs -> In z xs \/ In z ys.
Proof.
  intros Hn H1 H2 F. unfold onnx_where. cbn [tshape]. rewrite !bshape_self. rewrite tab_1.
  unfold upto at 1. rewrite mapo_map. rewrite Hn, Nat2N.id.
  rewrite (mapo_ext _ (fun k => match nth_error (map (conv BoolT) ([] ++ cs)) k with
                 | Some (EB true) => nth_error (map (conv d) ([] ++ xs)) k
                 | Some (EB false) => nth_error (map (conv d) ([] ++ ys)) k
                 | _ => None end)).
  2:{ intros k Hk. apply in_seq in Hk. rewrite !bproj_1, !get_1, !Nat2N.id by lia. reflexivity. }
  destruct (mapo _ _) as [r|] eqn:E; [|discriminate]. cbn. intros H. injection H as <-.
  destruct (mapo_three (conv d) cs xs ys [] [] [] r) as (zs & A & -> & B & C); auto. exists zs. auto.
Qed.
Lemma bproj_nil idx : bproj [] idx = [].
Proof. reflexivity. Qed.
Lemma where_whole b n lx ly z : n = N.of_nat (length lx) -> length lx = length ly ->
  onnx_where (mkT [] [EB b]) (mkT [n] lx) (mkT [n] ly) = Some z -> z = mkT [n] (if b then lx else ly).
Proof.
  intros Hn Hl. unfold onnx_where. cbn [tshape].
  replace (bshape [] [n]) with (Some [n]) by reflexivity. rewrite bshape_self, tab_1.
  rewrite (mapo_ext _ (fun i => nth_error (if b then lx else ly) (N.to_nat i))).
  - rewrite mapo_id by (destruct b; lia). cbn. intros H. injection H as <-. reflexivity.
  - intros i Hi. apply upto_In in Hi. rewrite bproj_nil. unfold get at 1. cbn [tshape offset tdata N.to_nat nth_error].
    rewrite !bproj_1, !get_1 by lia. destruct b; reflexivity.
Qed.
Lemma where_0 b x y z : onnx_where (mkT [] [EB b]) (mkT [] [x]) (mkT [] [y]) = Some z -> z = mkT [] [if b then x else y].
Proof. destruct b; cbn; intros H; injection H as <-; reflexivity. Qed.

(** ** Squeeze, Unsqueeze, Reshape of one dimension *)
Lemma deleted_1 P i d s : deleted P i [d] s -> (P i /\ s = []) \/ (~ P i /\ s = [d]).
Proof.
  intros H. inversion H as [|? ? ? ? Hp Hd|? ? ? ? Hp Hd]; subst; inversion Hd; subst; auto.
Qed.
Lemma squeeze_1 axes k s :
  match axes with Some l => squeeze_of l [k] s | None => squeeze_all_of [k] s end ->
  (k = 1%N -> axes <> Some []) -> k = 1%N /\ s = [] \/ k <> 1%N /\ s = [k].
Proof.
  destruct axes as [l|].
  - intros (V & O & D) N. cbn [length] in *. apply deleted_1 in D. destruct D as [[P ->]|[P ->]].
    + left. split; [|reflexivity]. apply (O 0%nat k P). reflexivity.
    + right. split; [|reflexivity]. intros E. apply N in E. destruct l as [|a l]; [congruence|].
      apply P. exists a. split; [left; reflexivity|apply position_1].
  - unfold squeeze_all_of. intros D _. apply deleted_1 in D. cbn in D. destruct D as [[P ->]|[P ->]].
    + injection P as ->. auto.
    + right. split; [|reflexivity]. congruence.
Qed.
Lemma unsqueeze_1 l s : unsqueeze_of [l] [] s -> s = [1%N].
Proof.
  intros (L & V & O & D). cbn in L. destruct s as [|m [|? ?]]; try discriminate L. cbn [length] in *.
  apply deleted_1 in D. destruct D as [[P _]|[_ E]]; [|discriminate E]. rewrite (O 0%nat m P eq_refl). reflexivity.
Qed.
Lemma reshape_scalar az k s : reshape_of az [k] [] s -> s = [] /\ k = 1%N.
Proof. intros (L & P & _). destruct s; [|discriminate L]. cbn in P. split; [reflexivity|lia]. Qed.
Lemma reshape_vec az k v s : reshape_of az [k] [v] s -> v <> 0 -> s = [k] /\ (v = -1 \/ v = Z.of_N k /\ 0 < v).
Proof.
  intros (L & P & _ & _ & H) V. destruct s as [|m [|? ?]]; try discriminate L. cbn in P. assert (m = k) by lia. subst m.
  split; [reflexivity|]. specialize (H 0%nat v k eq_refl eq_refl). lia.
Qed.

(** ** Node types *)
Lemma kind_binary n op : binary_node n = Some op -> kind_of n = Some (KBinary op).
Proof.
  unfold binary_node, kind_of. intros H.
  destruct (String.eqb_spec (ntype n) "Mod") as [E|NM]; [rewrite E in H; cbn in H|].
  { unfold fmod, int_attr in *. destruct (get_attr n "fmod") as [x|]; [|injection H as <-; reflexivity].
    destruct x; try discriminate H. match goal with z : Z |- _ => destruct z end; try discriminate H. injection H as <-. reflexivity. }
  destruct (String.eqb_spec (ntype n) "BitShift") as [E|NB].
  { rewrite E in H. unfold shift_direction. destruct (get_attr n "direction") as [x|]; [|discriminate H].
    destruct x as [| | | |dir| | | | | | |]; try discriminate H.
    destruct (String.eqb_spec dir "LEFT") as [E2|N2]; [injection H as <-; rewrite E2; reflexivity|].
    destruct (String.eqb_spec dir "RIGHT") as [E2|N3]; [injection H as <-; rewrite E2; reflexivity|]. discriminate H. }
  repeat match type of H with
  | (if String.eqb ?a ?b then _ else _) = _ =>
      destruct (String.eqb_spec a b) as [E|]; [rewrite E; injection H as <-; reflexivity|]
  end. discriminate H.
Qed.
Lemma kind_other n s k : ntype n = s -> In (s, k) names_of_kinds -> kind_of n = Some k.
Proof.
  intros E I. unfold kind_of. rewrite E.
  cbn in I. repeat (destruct I as [I|I]; [injection I as <- <-; reflexivity|]). destruct I.
Qed.
Lemma not_binary n s : ntype n = s -> In s (map fst (skipn 17 names_of_kinds)) -> binary_node n = None.
Proof.
  intros E I. unfold binary_node. rewrite E.
  cbn in I. repeat (destruct I as [<- | I]; [reflexivity|]). destruct I.
Qed.

(** ** One node *)
Section Node.
  Variable value : arg -> option cval.
  Variable opset : N.
  Variable n : rnode.
  Variable e : renv.
  Variable o : arg.
  Hypothesis Ho : noutputs n = [o].
  Definition node_ok (out : otensor) : Prop :=
    exists s v, gen_node value n = Some s /\ exec e s = Some v /\ stands_for (fst out) (aty o) v (snd out).
  Notation given := (given value e).
  Notation known := (fun a => constant_of value a <> None).

  Lemma gen_shapes op a b c : generate op (ShapeT a) (ShapeT b) = Some c -> exists u, c = CZip u.
  Proof. destruct op; cbn; intros H; try discriminate H; injection H as <-; eexists; reflexivity. Qed.

  Ltac other := match goal with
    | A : ntype ?n = _, B : ntype ?n = _ |- _ => rewrite A in B; discriminate B
    | A : ntype ?n = ?s, B : binary_node ?n = Some _ |- _ =>
        rewrite (not_binary n s A) in B; [discriminate B|cbn; tauto]
    end.

  Lemma node_binary op a b x y out : binary_node n = Some op -> ninputs n = [a; b] -> run_time a -> run_time b ->
    combination op (aty a) (aty b) -> given a x -> given b y -> onnx_node n [x; y] out ->
    infer_node value opset n = IOk (aty o) -> node_ok out.
  Proof.
    intros B I Ra Rb C (_ & _ & Ga) (_ & _ & Gb) O T.
    assert (exists d x0 y0 z, x = (d, x0) /\ y = (d, y0) /\ onnx_binary d op x0 y0 = Some z /\ out = (if is_compare op then BoolT else d, z))
      as (d & x0 & y0 & z & -> & -> & Z0 & ->).
    { inversion O; subst; try other. rewrite B in H1. injection H1 as <-. eauto 10. }
    destruct (Ga Ra) as (vl & El & Sl), (Gb Rb) as (vr & Er & Sr). cbn [fst snd] in *.
    destruct (all_done _ _ _ _ _ _ _ _ _ Sl Sr C Z0) as (c & Hg & ty & v & Hi & Hv & Hs).
    unfold infer_node in T. rewrite (kind_binary _ _ B), I, Hi in T. injection T as ->.
    unfold node_ok, gen_node. rewrite (kind_binary _ _ B), I, Ho, Hg. cbn [option_map].
    eexists _, v. split; [reflexivity|]. split; [|exact Hs]. cbn [exec]. rewrite El, Er. cbn [obind].
    rewrite <- Hv. pose proof (stands_elem _ _ _ _ Sl) as E1. pose proof (stands_elem _ _ _ _ Sr) as E2.
    destruct (aty a) as [d1|d1|k|t1] eqn:Ea; cbn [input_dtype elem_ok] in *; try (subst; reflexivity); try (destruct E1 as [<- _]; reflexivity).
    destruct (aty b) as [d2|d2|m|t2] eqn:Eb; cbn [input_dtype elem_ok] in *; try (subst; reflexivity); try (destruct E2 as [<- _]; reflexivity).
    destruct (gen_shapes _ _ _ _ Hg) as [u ->]. reflexivity.
  Qed.

  Lemma int_attr_or k d z : int_attr n k d = Some z -> attr_i64_or n k d = IOk z.
  Proof. unfold int_attr, attr_i64_or. destruct (get_attr n k) as [[]|]; cbn; intros H; try discriminate H; injection H as ->; reflexivity. Qed.
  Lemma norm_axis_ok rank a : Z.of_N rank <= 9223372036854775807 -> - Z.of_N rank <= a <= Z.of_N rank ->
    norm_axis rank a = Z.to_N (from_end (Z.of_N rank) a) /\ 0 <= from_end (Z.of_N rank) a <= Z.of_N rank.
  Proof. intros H R. unfold norm_axis, from_end. destruct (Z.ltb_spec a 0); [pose proof (to_usize_small (a + Z.of_N rank) ltac:(lia))|pose proof (to_usize_small a ltac:(lia))]; lia. Qed.
  Lemma dims_stand ds : Forall (fun m => Z.of_N m <= 9223372036854775807) ds ->
    stands_for I64 (ShapeT (N.of_nat (length ds))) (RShape (map Z.of_N ds)) (vec (map Z.of_N ds)).
  Proof.
    intros F. pose proof (conv_stands I64 (map Z.of_N ds) (or_introl eq_refl)) as H. unfold vec.
    rewrite map_length in *. apply H. rewrite Forall_map. eapply Forall_impl; [|exact F]. cbn. intros m Hm. exists (-9223372036854775808), 9223372036854775807.
    split; [reflexivity|lia].
  Qed.

  Lemma node_shape a y d x s t out : ntype n = "Shape"%string -> ninputs n = [a] -> run_time a -> aty a = TensorT y ->
    let r := Z.of_nat (length (tshape x)) in
    int_attr n "start" 0 = Some s -> int_attr n "end" r = Some t ->
    - r <= s <= r -> - r <= t <= r -> from_end r s <= from_end r t ->
    r <= 9223372036854775807 -> Forall (fun m => Z.of_N m <= 9223372036854775807) (tshape x) ->
    given a (d, x) -> onnx_node n [(d, x)] out ->
    infer_node value opset n = IOk (aty o) -> node_ok out.
  Proof.
    intros K I Ra Ta r As Ae Rs Re Le R63 F (_ & _ & Ga) O T.
    destruct (Ga Ra) as (v & E & S). cbn [fst snd] in *. rewrite Ta in S. destruct S as (W & _ & S). destruct v as [x'| |]; try contradiction.
    destruct S as (-> & _ & Hr & _).
    assert (out = (I64, vec (map Z.of_N (shape_value (tshape x) s t)))) as ->.
    { unfold r in Ae. clear - O As Ae K. inversion O; subst; try other. do 2 f_equal. f_equal. f_equal; congruence. }
    assert (SC : shape_config n = IOk (Z.to_N (from_end r s), Z.to_N (from_end r t)) /\ 0 <= from_end r s /\ from_end r t <= r).
    { unfold shape_config, first_input. rewrite I. cbn [ibind]. rewrite Ta. cbn [ibind]. rewrite (int_attr_or _ _ _ As). cbn [ibind].
      replace (Z.of_N (tt_rank y)) with r by (unfold r; lia). rewrite (int_attr_or _ _ _ Ae). cbn [ibind].
      assert (Er : Z.of_N (tt_rank y) = r) by (unfold r; lia).
      destruct (norm_axis_ok (tt_rank y) s) as [-> ?]; [lia|lia|]. destruct (norm_axis_ok (tt_rank y) t) as [-> ?]; [lia|lia|]. rewrite Er in *. split; [reflexivity|lia]. }
    destruct SC as (SC & B0 & B1).
    unfold infer_node in T. rewrite (kind_other _ _ KShape K) in T by (cbn; tauto).
    unfold infer_shape, first_input in T. rewrite I in T. cbn [ibind] in T. rewrite Ta, SC in T. cbn [ibind iexpect fst snd] in T. injection T as T.
    assert (U : usub (Z.to_N (from_end r t)) (Z.to_N (from_end r s)) = Z.to_N (from_end r t - from_end r s)).
    { unfold usub. destruct (N.leb_spec (Z.to_N (from_end r s)) (Z.to_N (from_end r t))); lia. }
    assert (V : shape_value (tshape x) s t = firstn (Z.to_nat (from_end r t - from_end r s)) (skipn (Z.to_nat (from_end r s)) (tshape x))).
    { unfold shape_value, shape_bounds. fold r. unfold clamp. rewrite !Z.min_r by lia. rewrite !Z.max_r by lia. reflexivity. }
    assert (L : N.of_nat (length (shape_value (tshape x) s t)) = Z.to_N (from_end r t - from_end r s)).
    { rewrite V, firstn_length, skipn_length. unfold r in *. lia. }
    unfold node_ok, gen_node. rewrite (kind_other _ _ KShape K) by (cbn; tauto). rewrite I, Ho. unfold gen_shape. rewrite <- T, SC, Ta, N.eqb_refl.
    eexists _, (RShape (map Z.of_N (shape_value (tshape x) s t))). split; [reflexivity|]. cbn [fst snd]. split.
    - cbn [exec]. rewrite E. unfold range. rewrite U.
      replace ((Z.to_N (from_end r s) <=? Z.to_N (from_end r t))%N) with true by lia.
      replace ((Z.to_N (from_end r t) <=? N.of_nat (length (tshape x)))%N) with true by (unfold r in *; lia). cbn [andb obind].
      replace (firstn _ _) with (shape_value (tshape x) s t) by (rewrite V; f_equal; [|f_equal]; lia).
      unfold array. rewrite map_length, L, N.eqb_refl. reflexivity.
    - rewrite U, <- L. apply dims_stand. rewrite V. eapply Forall_sub; [exact F|]. intros m Hm. apply firstn_In, skipn_In in Hm. exact Hm.
  Qed.

  Lemma node_shape_array a k x out : ntype n = "Shape"%string -> ninputs n = [a] -> run_time a -> aty a = ShapeT k ->
    get_attr n "start" = None -> get_attr n "end" = None -> Z.of_N k <= 9223372036854775807 ->
    given a x -> onnx_node n [x] out -> infer_node value opset n = IOk (aty o) -> node_ok out.
  Proof.
    intros K I Ra Ta As Ae Kk (_ & _ & Ga) O T.
    destruct (Ga Ra) as (v & E & S). destruct x as [d x]. cbn [fst snd] in *. rewrite Ta in S. apply array_conv in S.
    destruct S as (l & -> & -> & -> & _ & _).
    assert (out = (I64, vec (map Z.of_N [N.of_nat (length l)]))) as ->.
    { inversion O; subst; try other. unfold int_attr in *. rewrite As in *. rewrite Ae in *. repeat match goal with H : Some _ = Some _ |- _ => injection H as <- end. reflexivity. }
    unfold infer_node in T. rewrite (kind_other _ _ KShape K) in T by (cbn; tauto).
    unfold infer_shape, first_input in T. rewrite I in T. cbn [ibind] in T. rewrite Ta in T. injection T as T.
    unfold node_ok, gen_node. rewrite (kind_other _ _ KShape K) by (cbn; tauto). rewrite I, Ho. unfold gen_shape. rewrite <- T.
    unfold shape_config, first_input. rewrite I. cbn [ibind]. rewrite Ta. unfold attr_i64_or. rewrite As, Ae. cbn [ibind N.eqb Pos.eqb].
    eexists _, _. split; [reflexivity|]. split; [reflexivity|].
    cbn [fst snd]. apply (dims_stand [N.of_nat (length l)]). constructor; [exact Kk|constructor].
  Qed.

  Lemma given_array a x k : run_time a -> given a x -> aty a = ShapeT k ->
    exists d l, e (aname a) = Some (RShape l) /\ k = N.of_nat (length l) /\ x = (d, mkT [N.of_nat (length l)] (map (conv d) l)) /\
      Forall (okz d) l /\ (d = I64 \/ d = BoolT).
  Proof.
    intros R (_ & _ & G) T. destruct (G R) as (v & E & S). rewrite T in S. apply array_conv in S. destruct x as [d t]. cbn [fst snd] in S.
    destruct S as (l & -> & -> & -> & F & D). exists d, l. auto.
  Qed.
  Definition scalar_exp (a : arg) : sexp := match aty a with ScalarTensor _ => SRead (aname a) | _ => SVar (aname a) end.
  Lemma given_scalar a x d : run_time a -> given a x -> aty a = ScalarNative d \/ aty a = ScalarTensor d ->
    exists u, x = (d, mkT [] [u]) /\ in_dtype d u /\ scalar e (scalar_exp a) = Some u /\ index_exp a = Some (scalar_exp a) /\
      (aty a = ScalarNative d -> e (aname a) = Some (RNative u)).
  Proof.
    intros R (_ & _ & G) T. destruct (G R) as (v & E & W & F & S). destruct x as [d' t]. cbn [fst snd] in *.
    unfold scalar_exp, index_exp. destruct T as [T|T]; rewrite T in *; destruct v as [t'|u|]; try contradiction.
    - destruct S as (-> & ->). exists u. cbn [scalar]. rewrite E. inversion F. repeat split; auto.
    - destruct S as (-> & Hs & ->). destruct t as [s l]. cbn [tshape tdata] in *. subst s. unfold twf in W. cbn in W.
      destruct l as [|u [|? ?]]; try discriminate W. exists u. cbn [scalar]. rewrite E. inversion F. repeat split; auto. discriminate.
  Qed.
  Lemma okz_dtype d z : okz d z -> in_dtype d (conv d z).
  Proof. destruct d; cbn; try contradiction; auto. Qed.
  Lemma i64_elt u : in_dtype I64 u -> exists i, u = EI i.
  Proof. destruct u as [i|b|f]; cbn; [eauto|discriminate|intros (? & H); discriminate H]. Qed.
  Lemma bool_elt u : in_dtype BoolT u -> exists b, u = EB b.
  Proof. destruct u as [i|b|f]; cbn; [intros (? & ? & H & _); discriminate H|eauto|intros (? & H); discriminate H]. Qed.

  Ltac infer T K k := unfold infer_node in T; rewrite (kind_other _ _ k K) in T by (cbn; tauto).
  Ltac gen K k := unfold node_ok, gen_node; rewrite (kind_other _ _ k K) by (cbn; tauto).

  Lemma node_gather_scalar a b k x ix out : ntype n = "Gather"%string -> ninputs n = [a; b] -> run_time a -> run_time b ->
    aty a = ShapeT k -> aty b = ScalarNative I64 \/ aty b = ScalarTensor I64 -> given a (I64, x) -> given b ix ->
    onnx_node n [(I64, x); ix] out -> infer_node value opset n = IOk (aty o) -> node_ok out.
  Proof.
    intros K I Ra Rb Ta Tb Ga Gb O T. destruct (given_array _ _ _ Ra Ga Ta) as (d & l & E & -> & X & F & _). injection X as <- ->.
    destruct (given_scalar _ _ _ Rb Gb Tb) as (u & -> & U & Sc & Ix & _). destruct (i64_elt _ U) as [i ->].
    assert (exists ax z, onnx_gather ax (mkT [N.of_nat (length l)] (map (conv I64) l)) (mkT [] [EI i]) = Some z /\ out = (I64, z)) as (ax & z & Z0 & ->).
    { inversion O; subst; try other. eauto. }
    destruct (gather_scalar _ _ _ _ _ Z0) as (w & Hw & Iw & ->).
    infer T K KGather. unfold infer_gather in T. rewrite I in T. destruct (negb _); [discriminate T|].
    destruct (attr_i64_or n "axis" 0) as [ax0| |]; try discriminate T. cbn [ibind] in T. rewrite Ta in T. destruct (_ || _)%bool; [discriminate T|].
    replace (indices_rank (aty b)) with 0%N in T by (destruct Tb as [-> | ->]; reflexivity). cbn in T. injection T as T.
    gen K KGather. rewrite I, Ho. unfold gen_gather. rewrite Ta, <- T, Ix.
    replace (dtype_beq (input_dtype (aty b)) I64) with true by (destruct Tb as [-> | ->]; reflexivity). cbn [option_map].
    eexists _, _. split; [reflexivity|]. cbn [exec]. unfold arr. rewrite E. cbn [obind]. rewrite Sc, Hw. split; [reflexivity|].
    cbn [fst snd]. rewrite Forall_forall in F. split; [reflexivity|]. split; [constructor; [apply (okz_dtype I64), F, Iw|constructor]|]. split; reflexivity.
  Qed.

  Lemma mapo_len {A B} (f : A -> option B) : forall l r, mapo f l = Some r -> length r = length l.
  Proof.
    induction l as [|x l IH]; cbn; intros r H; [injection H as <-; reflexivity|].
    destruct (f x); [|discriminate H]. destruct (mapo f l); [|discriminate H]. injection H as <-. cbn. f_equal. apply IH. reflexivity.
  Qed.
  Lemma node_gather_array a b k m x ix out : ntype n = "Gather"%string -> ninputs n = [a; b] -> run_time a -> run_time b ->
    aty a = ShapeT k -> aty b = ShapeT m -> given a x -> given b ix ->
    onnx_node n [x; ix] out -> infer_node value opset n = IOk (aty o) -> node_ok out.
  Proof.
    intros K I Ra Rb Ta Tb Ga Gb O T. destruct (given_array _ _ _ Ra Ga Ta) as (d & l & E & -> & -> & F & D).
    destruct (given_array _ _ _ Rb Gb Tb) as (di & js & E2 & -> & -> & F2 & D2).
    assert (di = I64 /\ exists ax z, onnx_gather ax (mkT [N.of_nat (length l)] (map (conv d) l)) (mkT [N.of_nat (length js)] (map (conv di) js)) = Some z /\ out = (d, z)) as (-> & ax & z & Z0 & ->).
    { inversion O; subst; try other. split; [|eauto]. match goal with H : di = I64 \/ di = I32 |- _ => destruct H as [Hd|Hd] end; [exact Hd|]. destruct D2; congruence. }
    destruct (gather_array _ _ _ _ _ _ eq_refl Z0) as (xs & Hx & Fx & ->).
    infer T K KGather. unfold infer_gather in T. rewrite I in T. destruct (negb _); [discriminate T|].
    destruct (attr_i64_or n "axis" 0) as [ax0| |]; try discriminate T. cbn [ibind] in T. rewrite Ta in T. destruct (_ || _)%bool; [discriminate T|].
    rewrite Tb in T. cbn in T. injection T as T.
    gen K KGather. rewrite I, Ho. unfold gen_gather. rewrite Ta, <- T, Tb.
    eexists _, _. split; [reflexivity|]. cbn [exec]. unfold arr. rewrite E, E2. cbn [obind]. rewrite Hx. cbn [obind]. unfold array.
    rewrite <- (mapo_len _ _ _ Hx), N.eqb_refl. split; [reflexivity|]. cbn [fst snd].
    apply conv_stands; [exact D|]. rewrite Forall_forall in *. intros w Hw. apply F, Fx, Hw.
  Qed.

  Lemma parts d : forall args xs0, Forall2 given args (map (pair d) xs0) ->
    Forall (fun a => run_time a /\ exists k, aty a = ShapeT k) args ->
    exists ls, mapo (arr e) (map aname args) = Some ls /\ xs0 = map (fun l => mkT [N.of_nat (length l)] (map (conv d) l)) ls /\
      map aty args = map (fun l => ShapeT (N.of_nat (length l))) ls /\ Forall (Forall (okz d)) ls /\ (args <> [] -> d = I64 \/ d = BoolT).
  Proof.
    induction args as [|a args IH]; intros xs0 G F.
    { inversion G. destruct xs0; [|discriminate]. exists []. repeat split; auto. intros Hc. elim Hc. reflexivity. }
    destruct xs0 as [|x xs0]; [inversion G|]. inversion G as [|? ? ? ? G1 G2]; subst. inversion F as [|? ? (R & k & T) F2]; subst.
    destruct (IH _ G2 F2) as (ls & M & -> & Ts & Fs & _). destruct (given_array _ _ _ R G1 T) as (d' & l & E & -> & X & Fl & D).
    injection X as <- ->. exists (l :: ls). cbn [map mapo]. unfold arr at 1. rewrite E, M, T, Ts. repeat split; auto.
  Qed.
  Lemma total_shapes : forall args ls, map aty args = map (fun l : list Z => ShapeT (N.of_nat (length l))) ls ->
    total_len (fun a => match aty a with ShapeT r => IOk r | _ => IErr end) args = IOk (N.of_nat (length (concat ls))).
  Proof.
    induction args as [|a args IH]; intros [|l ls] H; try discriminate H; [reflexivity|]. injection H as Ha H. cbn [total_len]. rewrite Ha. cbn [ibind].
    rewrite (IH _ H). cbn [ibind concat]. rewrite app_length. f_equal. lia.
  Qed.
  Lemma existsb_types (f : argty -> bool) : (forall r, f (ShapeT r) = false) -> forall args ls, map aty args = map (fun l : list Z => ShapeT (N.of_nat (length l))) ls ->
    existsb (fun a => f (aty a)) args = false.
  Proof. intros Hf. induction args as [|a args IH]; intros [|l ls] H; try discriminate H; [reflexivity|]. injection H as Ha H. cbn. rewrite Ha, Hf. exact (IH _ H). Qed.

  Lemma node_concat xs out : ntype n = "Concat"%string ->
    Forall (fun a => run_time a /\ exists k, aty a = ShapeT k) (ninputs n) -> Forall2 given (ninputs n) xs ->
    onnx_node n xs out -> infer_node value opset n = IOk (aty o) -> node_ok out.
  Proof.
    intros K F G O T.
    assert (exists d xs0 ax z, xs = map (pair d) xs0 /\ get_attr n "axis" = Some (AInt ax) /\ onnx_concat ax xs0 z /\ out = (d, z)) as (d & xs0 & ax & z & -> & Ax & Z0 & ->).
    { inversion O; subst; try other. eauto 10. }
    destruct (parts _ _ _ G F) as (ls & M & -> & Ts & Fs & D).
    assert (Hn : ninputs n <> [] /\ (- Z.of_N 1 <= ax < Z.of_N 1)).
    { destruct Z0 as (s & A & (N1 & L & Al & _) & _). destruct ls as [|l ls]; [elim N1; reflexivity|].
      split; [intros E; rewrite E in Ts; discriminate Ts|]. destruct (Al [N.of_nat (length l)]) as [L1 _]; [left; reflexivity|]. cbn in L1. rewrite <- L1 in A.
      unfold axis_ok in A. lia. }
    destruct Hn as [Hn Ra]. specialize (D Hn).
    apply concat_1 in Z0; [|rewrite Forall_map; apply Forall_forall; intros l _; split; [unfold twf; cbn; rewrite map_length; lia|eexists; reflexivity]].
    assert (Ec : concat (map tdata (map (fun l => mkT [N.of_nat (length l)] (map (conv d) l)) ls)) = map (conv d) (concat ls)).
    { rewrite map_map. cbn [tdata]. rewrite concat_map. reflexivity. }
    rewrite Ec, map_length in Z0. subst z.
    destruct (ninputs n) as [|i0 rest] eqn:I; [elim Hn; reflexivity|]. destruct ls as [|l0 ls0]; [discriminate Ts|]. set (ls := l0 :: ls0) in *.
    assert (T0 : aty i0 = ShapeT (N.of_nat (length l0))) by (injection Ts as E0 _; exact E0).
    assert (CA : concat_axis n = IOk 0%N).
    { rewrite (concat_axis_ok n i0 rest ax 1%N I Ax); [rewrite position_1; reflexivity|rewrite T0; reflexivity|reflexivity|exact Ra]. }
    infer T K KConcat. unfold infer_concat in T. rewrite CA in T. cbn [ibind iexpect] in T. rewrite I in T.
    rewrite (existsb_types is_scalar (fun _ => eq_refl) _ _ Ts), (existsb_types is_rank1 (fun _ => eq_refl) _ _ Ts) in T.
    replace (existsb (fun a => is_shape (aty a)) (i0 :: rest)) with true in T by (cbn; rewrite T0; reflexivity).
    unfold first_input in T. rewrite I in T. cbn [ibind negb andb] in T. rewrite T0, (total_shapes _ _ Ts) in T. cbn [ibind] in T. injection T as T.
    gen K KConcat. rewrite Ho. unfold gen_concat. rewrite <- T, CA, I.
    replace (forallb _ (i0 :: rest)) with true.
    2:{ symmetry. apply forallb_forall. intros a Ha. rewrite Forall_forall in F. destruct (F a Ha) as (_ & k & ->). reflexivity. }
    cbn [N.eqb negb]. eexists _, (RShape (concat ls)). split; [reflexivity|]. split.
    - cbn [exec]. rewrite M. cbn [obind]. unfold array. rewrite N.eqb_refl. reflexivity.
    - cbn [fst snd]. apply conv_stands; [exact D|]. rewrite Forall_forall in *. intros w Hw. apply in_concat in Hw.
      destruct Hw as (l & Hl & Hw). specialize (Fs l Hl). rewrite Forall_forall in Fs. apply Fs, Hw.
  Qed.

  Lemma node_squeeze a rest k x xs out : ntype n = "Squeeze"%string -> ninputs n = a :: rest -> run_time a -> aty a = ShapeT k ->
    (k = 1%N -> fst x = I64 /\ axes_of n (x :: xs) <> Some (Some [])) -> given a x -> onnx_node n (x :: xs) out ->
    infer_node value opset n = IOk (aty o) -> node_ok out.
  Proof.
    intros K I Ra Ta H1 Ga O T. destruct (given_array _ _ _ Ra Ga Ta) as (d & l & E & -> & -> & F & D). cbn [fst] in H1.
    set (x := mkT [N.of_nat (length l)] (map (conv d) l)) in *.
    assert (exists axes s, axes_of n ((d, x) :: xs) = Some axes /\ match axes with Some l => squeeze_of l (tshape x) s | None => squeeze_all_of (tshape x) s end /\ out = (d, mkT s (tdata x)))
      as (axes & s & Ax & Sq & ->).
    { clearbody x. inversion O; subst; try other. eauto 10. }
    apply squeeze_1 in Sq; [|intros E1; destruct (H1 E1) as [_ N1]; congruence].
    infer T K KSqueeze. unfold infer_squeeze in T. destruct (iexpect (squeeze_axes value opset n)) as [axs| |]; try discriminate T. cbn [ibind] in T.
    unfold first_input in T. rewrite I in T. cbn [ibind] in T. rewrite Ta in T.
    destruct (match axs with Some l1 => _ | None => false end); [discriminate T|]. injection T as T.
    gen K KSqueeze. rewrite I, Ho. unfold gen_squeeze. rewrite Ta, <- T.
    destruct Sq as [(E1 & ->)|(E1 & ->)]; destruct (N.eqb_spec (N.of_nat (length l)) 1) as [E2|E2]; try contradiction.
    - destruct (H1 E1) as [-> _]. destruct l as [|z [|? ?]]; cbn [length] in E1; try lia. eexists _, (RNative (EI z)). split; [reflexivity|].
      cbn [exec]. unfold arr. rewrite E. cbn [obind]. split; [reflexivity|]. cbn [fst snd x tdata map conv].
      inversion F as [|? ? Fz _]; subst. split; [reflexivity|]. split; [constructor; [exact Fz|constructor]|]. split; reflexivity.
    - eexists _, (RShape l). split; [reflexivity|]. cbn [exec]. split; [exact E|]. cbn [fst snd]. apply conv_stands; assumption.
  Qed.

  Lemma node_unsqueeze a rest x xs l out : ntype n = "Unsqueeze"%string -> ninputs n = a :: rest -> run_time a ->
    aty a = ScalarNative I64 \/ aty a = ScalarTensor I64 -> Forall known rest ->
    axes_of n (x :: xs) = Some (Some [l]) -> Forall2 given (ninputs n) (x :: xs) -> onnx_node n (x :: xs) out ->
    infer_node value opset n = IOk (aty o) -> node_ok out.
  Proof.
    intros K I Ra Ta Kn Ax G O T. rewrite I in G. inversion G as [|? ? ? ? Ga Gr]; subst. clear G.
    destruct (given_scalar _ _ _ Ra Ga Ta) as (u & -> & U & Sc & _ & _). destruct (i64_elt _ U) as [i ->].
    assert (out = (I64, mkT [1%N] [EI i])) as ->.
    { inversion O; subst; try other. match goal with Hx : axes_of _ _ = Some (Some _), Hu : unsqueeze_of _ _ _ |- _ => pose proof (eq_trans (eq_sym Ax) Hx) as Q; injection Q as Q; rewrite <- Q in Hu; apply unsqueeze_1 in Hu; rewrite Hu end. reflexivity. }
    assert (UA : iexpect (unsqueeze_axes value opset n) = IOk (Some [l]) \/ iexpect (unsqueeze_axes value opset n) = IPanic).
    { unfold unsqueeze_axes. unfold axes_of in Ax. destruct (get_attr n "axes") as [at0|].
      - destruct at0; try discriminate Ax. destruct xs; [|discriminate Ax]. injection Ax as ->. destruct (N.leb 13 opset); [right|left]; reflexivity.
      - destruct xs as [|ax [|? ?]]; try discriminate Ax. rewrite I. inversion Gr as [|i1 ? r2 ? G1 G2]; subst. inversion G2; subst.
        inversion Kn as [|? ? K1 _]; subst. destruct G1 as (C1 & _ & _). unfold constant_of in *.
        destruct (value i1) as [v|]; [|elim K1; reflexivity]. destruct (cv_ints v) as [li|] eqn:Cv; [|elim K1; reflexivity].
        rewrite (C1 _ eq_refl) in Ax. cbn [snd] in Ax. rewrite as_ints_map in Ax. injection Ax as ->.
        destruct (aty i1) as [d1|d1|m|t]; try (right; reflexivity).
        + destruct (negb _); [right|left]; reflexivity.
        + destruct (negb _); [right|left]; reflexivity.
        + destruct (_ && _)%bool; [right; reflexivity|]. destruct (negb _); [right|left]; reflexivity. }
    infer T K KUnsqueeze. unfold infer_unsqueeze in T. destruct UA as [UA|UA]; rewrite UA in T; [|discriminate T]. cbn [ibind] in T.
    unfold first_input, first_output in T. rewrite I, Ho in T. cbn [ibind] in T.
    gen K KUnsqueeze. rewrite I, Ho. unfold gen_unsqueeze, scalar_exp in *.
    destruct Ta as [Ta|Ta]; rewrite Ta in *; cbn in T; injection T as T; rewrite <- T.
    all: eexists _, (RShape [i]); split; [reflexivity|]; cbn [exec]; rewrite Sc; split; [reflexivity|].
    all: apply (conv_stands I64 [i]); [left; reflexivity|constructor; [exact U|constructor]].
  Qed.

  Lemma node_where_items a b c k u x y out : ntype n = "Where"%string -> ninputs n = [a; b; c] ->
    run_time a -> run_time b -> run_time c -> aty a = ShapeT k -> aty b = ShapeT k -> aty c = ShapeT k ->
    given a u -> given b x -> given c y -> onnx_node n [u; x; y] out -> infer_node value opset n = IOk (aty o) -> node_ok out.
  Proof.
    intros K I Ra Rb Rc Ta Tb Tc Ga Gb Gc O T.
    destruct (given_array _ _ _ Ra Ga Ta) as (d1 & cs & E1 & L1 & -> & F1 & D1).
    destruct (given_array _ _ _ Rb Gb Tb) as (d2 & xs & E2 & L2 & -> & F2 & D2).
    destruct (given_array _ _ _ Rc Gc Tc) as (d3 & ys & E3 & L3 & -> & F3 & D3).
    assert (d1 = BoolT /\ d2 = d3 /\ exists z, onnx_where (mkT [N.of_nat (length cs)] (map (conv d1) cs)) (mkT [N.of_nat (length xs)] (map (conv d2) xs)) (mkT [N.of_nat (length ys)] (map (conv d3) ys)) = Some z /\ out = (d3, z))
      as (-> & -> & z & Z0 & ->).
    { inversion O; subst; try other. eauto. }
    rewrite <- L1, <- L2, <- L3 in Z0. apply where_1 in Z0; [|lia|lia|lia|exact F1]. destruct Z0 as (zs & Hz & -> & Lz & Iz).
    infer T K KWhere. unfold infer_where in T. rewrite I in T. cbn [map] in T. rewrite Ta, Tb, Tc in T. cbn in T. rewrite N.max_id in T. injection T as T.
    gen K KWhere. rewrite I, Ho. unfold gen_where. rewrite <- T, Ta, Tb, Tc.
    eexists _, (RShape zs). split; [reflexivity|]. cbn [exec]. unfold arr. rewrite E1, E2, E3. cbn [obind]. rewrite Hz. split; [reflexivity|]. cbn [fst snd].
    replace k with (N.of_nat (length zs)) by lia. apply conv_stands; [exact D3|]. rewrite Forall_forall in *. intros w Hw. destruct (Iz w Hw); auto.
  Qed.

  Lemma node_where_whole a b c k u x y out : ntype n = "Where"%string -> ninputs n = [a; b; c] ->
    run_time a -> run_time b -> run_time c -> aty a = ScalarNative BoolT \/ aty a = ScalarTensor BoolT ->
    aty b = ShapeT k -> aty c = ShapeT k ->
    given a u -> given b x -> given c y -> onnx_node n [u; x; y] out -> infer_node value opset n = IOk (aty o) -> node_ok out.
  Proof.
    intros K I Ra Rb Rc Ta Tb Tc Ga Gb Gc O T.
    destruct (given_scalar _ _ _ Ra Ga Ta) as (cu & -> & U & Sc & _ & _). destruct (bool_elt _ U) as [cb ->].
    destruct (given_array _ _ _ Rb Gb Tb) as (d2 & xs & E2 & L2 & -> & F2 & D2).
    destruct (given_array _ _ _ Rc Gc Tc) as (d3 & ys & E3 & L3 & -> & F3 & D3).
    assert (d2 = d3 /\ exists z, onnx_where (mkT [] [EB cb]) (mkT [N.of_nat (length xs)] (map (conv d2) xs)) (mkT [N.of_nat (length ys)] (map (conv d3) ys)) = Some z /\ out = (d3, z))
      as (-> & z & Z0 & ->).
    { inversion O; subst; try other. eauto. }
    rewrite <- L2, <- L3 in Z0. apply where_whole in Z0; [|rewrite map_length; lia|rewrite !map_length; lia]. subst z.
    infer T K KWhere. unfold infer_where in T. rewrite I in T. cbn [map] in T. rewrite Tb, Tc in T.
    assert (aty o = ShapeT k) as To by (destruct Ta as [Ta|Ta]; rewrite Ta in T; cbn in T; rewrite N.max_id in T; injection T as T; symmetry; exact T). clear T.
    gen K KWhere. rewrite I, Ho. unfold gen_where, cond_exp. unfold scalar_exp in Sc.
    exists (TIf (match aty a with ScalarTensor _ => SRead (aname a) | _ => SVar (aname a) end) (aname b) (aname c)), (RShape (if cb then xs else ys)).
    rewrite To, Tb, Tc. split; [destruct Ta as [Ta|Ta]; rewrite Ta; reflexivity|]. cbn [exec]. rewrite Sc. split; [destruct cb; assumption|]. cbn [fst snd].
    destruct cb; [rewrite L2|rewrite L3]; apply conv_stands; assumption.
  Qed.

  Lemma node_where_scalar a b c d u x y out : ntype n = "Where"%string -> ninputs n = [a; b; c] ->
    run_time a -> run_time b -> run_time c -> aty a = ScalarNative BoolT -> aty b = ScalarNative d -> aty c = ScalarNative d ->
    given a u -> given b x -> given c y -> onnx_node n [u; x; y] out -> infer_node value opset n = IOk (aty o) -> node_ok out.
  Proof.
    intros K I Ra Rb Rc Ta Tb Tc Ga Gb Gc O T.
    destruct (given_scalar _ _ _ Ra Ga (or_introl Ta)) as (cu & -> & U & Sc & _ & _). destruct (bool_elt _ U) as [cb ->].
    destruct (given_scalar _ _ _ Rb Gb (or_introl Tb)) as (x1 & -> & U1 & _ & _ & E2).
    destruct (given_scalar _ _ _ Rc Gc (or_introl Tc)) as (y1 & -> & U2 & _ & _ & E3).
    assert (out = (d, mkT [] [if cb then x1 else y1])) as ->.
    { inversion O; subst; try other. match goal with H : onnx_where _ _ _ = Some _ |- _ => apply where_0 in H; rewrite H end. reflexivity. }
    infer T K KWhere. unfold infer_where in T. rewrite I in T. cbn [map] in T. rewrite Ta, Tb, Tc in T. cbn in T.
    replace (dtype_beq d d) with true in T by (destruct d; reflexivity). cbn in T. injection T as T.
    gen K KWhere. rewrite I, Ho. unfold gen_where, cond_exp. unfold scalar_exp in Sc. rewrite <- T. rewrite Ta in *.
    eexists _, (RNative (if cb then x1 else y1)). split; [reflexivity|]. cbn [exec]. rewrite Sc. split; [destruct cb; auto|]. cbn [fst snd].
    split; [reflexivity|]. split; [constructor; [destruct cb; assumption|constructor]|]. split; reflexivity.
  Qed.

  Lemma cast_same d l : d = I64 \/ d = BoolT -> Forall (okz d) l -> mapo (cast_elt I64) (map (conv d) l) = Some (map EI l).
  Proof.
    intros D F. induction F as [|z l Fz F IH]; [reflexivity|]. cbn [map mapo]. rewrite IH. destruct D as [-> | ->]; cbn in Fz |- *.
    - destruct Fz as (lo & hi & H & R). injection H as <- <-. replace (_ && _)%bool with true by lia. reflexivity.
    - destruct Fz as [-> | ->]; reflexivity.
  Qed.
  Lemma cast_bools d l : d = I64 \/ d = BoolT -> Forall (okz d) l ->
    mapo (cast_elt BoolT) (map (conv d) l) = Some (map (fun z => EB (negb (z =? 0))) l).
  Proof.
    intros D F. induction F as [|z l Fz F IH]; [reflexivity|]. cbn [map mapo]. rewrite IH. destruct D as [-> | ->]; cbn in Fz |- *; [reflexivity|].
    destruct Fz as [-> | ->]; reflexivity.
  Qed.
  Lemma okz_i64 d l : d = I64 \/ d = BoolT -> Forall (okz d) l -> Forall (okz I64) l.
  Proof.
    intros [-> | ->] F; [exact F|]. eapply Forall_impl; [|exact F]. cbn. intros z H. exists (-9223372036854775808), 9223372036854775807.
    split; [reflexivity|lia].
  Qed.
  Lemma node_cast a k d x out : ntype n = "Cast"%string -> ninputs n = [a] -> run_time a -> aty a = ShapeT k ->
    d = I64 \/ d = BoolT -> get_attr n "to" = Some (AInt (type_number d)) ->
    given a x -> onnx_node n [x] out -> infer_node value opset n = IOk (aty o) -> node_ok out.
  Proof.
    intros K I Ra Ta Dd At Ga O T. destruct (given_array _ _ _ Ra Ga Ta) as (dx & l & E & -> & -> & F & D).
    assert (exists l', mapo (cast_elt d) (map (conv dx) l) = Some l' /\ out = (d, mkT [N.of_nat (length l)] l')) as (l' & M & ->).
    { inversion O; subst; try other. match goal with H : get_attr n "to" = Some (AInt (type_number ?d')) |- _ => assert (d' = d) as -> end.
      { match goal with H : get_attr n "to" = Some (AInt (type_number ?d')) |- d' = d => rewrite At in H; injection H as H; destruct Dd as [-> | ->]; destruct d'; try discriminate H; reflexivity end. }
      eexists. split; [eassumption|reflexivity]. }
    assert (CT : cast_to n = IOk d) by (unfold cast_to; rewrite At; destruct Dd as [-> | ->]; reflexivity).
    infer T K KCast. unfold infer_cast, first_input in T. rewrite CT, I in T. cbn [ibind] in T. rewrite Ta in T.
    gen K KCast. rewrite I, Ho. unfold gen_cast. rewrite Ta, CT. destruct Dd as [-> | ->]; cbn in T; injection T as T; rewrite <- T.
    - rewrite (cast_same _ _ D F) in M. injection M as <-. eexists _, (RShape l). split; [reflexivity|]. split; [exact E|]. cbn [fst snd].
      apply (conv_stands I64); [left; reflexivity|]. eapply okz_i64; eassumption.
    - rewrite (cast_bools _ _ D F) in M. injection M as <-. eexists _, _. split; [reflexivity|]. cbn [exec]. unfold arr. rewrite E. cbn [obind]. split; [reflexivity|].
      cbn [fst snd]. split; [unfold twf; cbn; rewrite map_length; lia|]. split; [rewrite Forall_forall; cbn [tdata]; intros w Hw; apply in_map_iff in Hw; destruct Hw as (z & <- & _); reflexivity|].
      repeat split. discriminate.
  Qed.

  Lemma node_reshape a b k x req l out : ntype n = "Reshape"%string -> ninputs n = [a; b] -> run_time a -> constant_of value b <> None ->
    aty a = ShapeT k -> as_ints (snd req) = Some l -> l = [] /\ fst x = I64 \/ (exists v, l = [v] /\ v <> 0) ->
    given a x -> given b req -> onnx_node n [x; req] out -> infer_node value opset n = IOk (aty o) -> node_ok out.
  Proof.
    intros K I Ra Kb Ta Al Cl Ga Gb O T. destruct (given_array _ _ _ Ra Ga Ta) as (d & xs & E & -> & -> & F & D). cbn [fst] in Cl.
    assert (GS : get_static_shape value n = IOk (Some l) /\ Forall (in_dtype (fst req)) (map EI l)).
    { destruct Gb as (C1 & (_ & Fb) & _). unfold get_static_shape. rewrite I. unfold constant_of in *. destruct (value b) as [v|]; [|elim Kb; reflexivity].
      destruct (cv_ints v) as [li|] eqn:Cv; [|elim Kb; reflexivity]. rewrite (C1 _ eq_refl) in *. cbn [fst snd] in *. rewrite as_ints_map in Al. injection Al as <-. split; [reflexivity|exact Fb]. }
    destruct GS as [GS Fl].
    assert (fst req = I64 /\ exists az s, reshape_of az [N.of_nat (length xs)] l s /\ out = (d, mkT s (map (conv d) xs))) as (Dr & az & s & Rs & ->).
    { inversion O; subst; try other. cbn [snd] in Al. match goal with H : as_ints req0 = Some ?l2 |- _ => assert (l2 = l) as -> by congruence end.
      split; [reflexivity|]. eexists _, _. split; [eassumption|reflexivity]. }
    rewrite Dr in Fl.
    infer T K KReshape. unfold infer_reshape in T. destruct (negb _); [discriminate T|]. rewrite GS in T. cbn [ibind] in T.
    destruct (attr_i64_or n "allowzero" 0) as [az0| |]; try discriminate T. cbn [ibind] in T. destruct (negb _); [discriminate T|].
    unfold first_input, first_output in T. rewrite I, Ho in T. cbn [ibind reshape_rank] in T. rewrite Ta in T.
    gen K KReshape. rewrite I, Ho. unfold gen_reshape. rewrite Ta, GS.
    destruct Cl as [(-> & ->)|(v & -> & Nv)].
    - cbn in T. injection T as T. rewrite <- T. apply reshape_scalar in Rs. destruct Rs as [-> L]. rewrite L. cbn [N.eqb Pos.eqb].
      destruct xs as [|z [|? ?]]; cbn [length] in L; try lia. eexists _, (RNative (EI z)). split; [reflexivity|]. cbn [exec]. unfold arr. rewrite E. split; [reflexivity|].
      inversion F as [|? ? Fz _]; subst. cbn [fst snd map conv]. split; [reflexivity|]. split; [constructor; [exact Fz|constructor]|]. split; reflexivity.
    - destruct (reshape_vec _ _ _ _ Rs Nv) as [-> Hv]. inversion Fl as [|? ? Fv _]; subst. destruct Fv as (lo & hi & Hr & Rv). injection Hr as <- <-.
      assert (aty o = ShapeT (N.of_nat (length xs))) as ->.
      { cbn [length N.of_nat reshape_output_type N.eqb Pos.of_succ_nat Pos.eqb shape_output_size] in T. injection T as T. rewrite <- T. f_equal.
        destruct Hv as [-> | [Hv Hp]]; [reflexivity|]. replace (v =? -1) with false by lia. replace (0 <? v) with true by lia.
        pose proof (to_usize_small v ltac:(lia)). lia. }
      rewrite N.eqb_refl. eexists _, (RShape xs). split; [reflexivity|]. split; [exact E|]. cbn [fst snd]. apply conv_stands; assumption.
  Qed.

  Lemma known_ints a x : constant_of value a <> None -> given a x ->
    exists v l, value a = Some v /\ cv_ints v = Some l /\ as_ints (snd x) = Some l /\ Forall (in_dtype (fst x)) (map EI l).
  Proof.
    intros Kb (C1 & (_ & F) & _). unfold constant_of in *. destruct (value a) as [v|]; [|elim Kb; reflexivity].
    destruct (cv_ints v) as [l|] eqn:Cv; [|elim Kb; reflexivity]. rewrite (C1 _ eq_refl) in *. cbn [fst snd] in *. exists v, l. rewrite as_ints_map. auto.
  Qed.
  Lemma known_input a rest x xs i : ninputs n = a :: rest -> Forall known rest -> Forall2 given rest xs ->
    match nth_error (x :: xs) (S i) with
    | Some t => exists l, as_ints (snd t) = Some l /\ get_slice_input value n (S i) = IOk (Some (LStatic l)) /\ Forall (in_dtype (fst t)) (map EI l)
    | None => get_slice_input value n (S i) = IOk None
    end.
  Proof.
    intros I Kn G. unfold get_slice_input. rewrite I. cbn [nth_error]. clear I. revert i. induction G as [|a1 x1 r1 l1 G1 G IH]; intros i.
    - destruct i; reflexivity.
    - inversion Kn as [|? ? K1 K2]; subst. destruct i as [|i]; cbn [nth_error].
      + destruct (known_ints _ _ K1 G1) as (v & l & -> & -> & A & F). exists l. auto.
      + exact (IH K2 i).
  Qed.
  Lemma cuts_one axes ss es ks c : cuts_of axes ss es ks = Some [c] ->
    axes = [c_axis c] /\ ss = [c_start c] /\ es = [c_stop c] /\ ks = [c_step c].
  Proof.
    destruct axes as [|a axes], ss as [|s ss], es as [|t es], ks as [|k ks]; cbn; intros H; try discriminate H.
    destruct (cuts_of axes ss es ks) eqn:E; [|discriminate H]. cbn in H. injection H as <- ->.
    destruct axes, ss, es, ks; cbn in E; try discriminate E; [|destruct (cuts_of _ _ _ _); discriminate E]. auto.
  Qed.
  Lemma int_i64_range d z : d = I64 \/ d = I32 -> in_dtype d (EI z) -> i64_range z.
  Proof. intros [-> | ->] (lo & hi & H & R); injection H as <- <-; unfold i64_range; lia. Qed.
  Lemma kept_count k c : length (kept k (Some c)) = N.to_nat (slice_size k (c_start c) (c_stop c) (c_step c)).
  Proof.
    unfold kept, slice_size. rewrite upto_filter.
    assert (E : length (map N.of_nat (filter (fun i => taken (Z.of_N k) (c_start c) (c_stop c) (c_step c) (Z.of_N (N.of_nat i))) (seq 0 (N.to_nat k)))) =
                N.to_nat (N.of_nat (length (filter (fun i => taken (Z.of_N k) (c_start c) (c_stop c) (c_step c) (Z.of_nat i)) (seq 0 (N.to_nat k)))))).
    { rewrite map_length, Nat2N.id. f_equal. apply filter_ext. intros i. rewrite nat_N_Z. reflexivity. }
    destruct (0 <? c_step c); [|rewrite rev_length]; exact E.
  Qed.

  Lemma slice_conf_ok a rest k x xs c : ninputs n = a :: rest -> aty a = ShapeT k -> Forall known rest -> Forall2 given rest xs ->
    Forall (fun t => fst t = I64 \/ fst t = I32) xs -> slice_inputs (x :: xs) = Some [c] -> c_step c <> 0 ->
    exists ax, slice_config value n = IOk (mkSlice (LStatic [c_start c]) (LStatic [c_stop c]) ax (Some (LStatic [c_step c]))) /\
      i64_range (c_start c) /\ i64_range (c_stop c).
  Proof.
    intros I Ta Kn G Ft S Nz. unfold slice_inputs in S.
    pose proof (fun i => known_input a rest x xs i I Kn G) as Kin.
    pose proof (Kin 0%nat) as K1. pose proof (Kin 1%nat) as K2. pose proof (Kin 2%nat) as K3. pose proof (Kin 3%nat) as K4. clear Kin.
    destruct (nth_error (x :: xs) 1) as [t1|] eqn:N1; [|discriminate S]. destruct (nth_error (x :: xs) 2) as [t2|] eqn:N2; [|discriminate S].
    destruct K1 as (l1 & A1 & G1 & F1), K2 as (l2 & A2 & G2 & F2). rewrite A1, A2 in S.
    assert (Ht1 : fst t1 = I64 \/ fst t1 = I32) by (rewrite Forall_forall in Ft; apply Ft; apply (nth_error_In xs 0 N1)).
    assert (Ht2 : fst t2 = I64 \/ fst t2 = I32) by (rewrite Forall_forall in Ft; apply Ft; apply (nth_error_In xs 1 N2)).
    assert (R2 : exists i1 r2, rest = i1 :: r2) by (destruct xs; [discriminate N1|]; inversion G; eauto). destruct R2 as (i1 & r2 & ->).
    unfold slice_config. rewrite I, G1. cbn [ibind]. rewrite G2. cbn [ibind].
    assert (Fin : forall ax ks, c_step c = ks -> exists ax', (if existsb (Z.eqb 0) [ks] then IErr else IOk (mkSlice (LStatic [c_start c]) (LStatic [c_stop c]) (normalize_axes a ax) (Some (LStatic [ks])))) =
       IOk (mkSlice (LStatic [c_start c]) (LStatic [c_stop c]) ax' (Some (LStatic [c_step c])))).
    { intros ax ks <-. cbn [existsb]. rewrite (proj2 (Z.eqb_neq 0 (c_step c))) by lia. eexists. reflexivity. }
    assert (Rng : l1 = [c_start c] -> l2 = [c_stop c] -> i64_range (c_start c) /\ i64_range (c_stop c)).
    { intros -> ->. inversion F1; inversion F2; subst. split; [apply (int_i64_range _ _ Ht1)|apply (int_i64_range _ _ Ht2)]; assumption. }
    destruct (nth_error (x :: xs) 3) as [t3|] eqn:N3; [destruct K3 as (l3 & A3 & G3 & _); rewrite A3 in S; rewrite G3|rewrite K3]; cbn [ibind];
    (destruct (nth_error (x :: xs) 4) as [t4|] eqn:N4; [destruct K4 as (l4 & A4 & G4 & _); rewrite A4 in S; rewrite G4|rewrite K4]); cbn [ibind].
    all: apply cuts_one in S; destruct S as (Sa & Ss & Se & Sk); specialize (Rng Ss Se); rewrite Ss, Se; try rewrite Ss in Sk; cbn [length repeat] in Sk |- *; rewrite Sk.
    all: edestruct Fin as [ax' Hax]; [reflexivity|exists ax'; split; [exact Hax|exact Rng]].
  Qed.

  Lemma node_slice a rest k x xs c out : ntype n = "Slice"%string -> ninputs n = a :: rest -> run_time a -> aty a = ShapeT k ->
    Forall known rest -> slice_inputs (x :: xs) = Some [c] ->
    0 < c_step c < 4611686018427387904 -> Z.of_N k < 4611686018427387904 ->
    clamp 0 (Z.of_N k) (from_end (Z.of_N k) (c_start c)) <= clamp 0 (Z.of_N k) (from_end (Z.of_N k) (c_stop c)) ->
    Forall2 given (ninputs n) (x :: xs) -> onnx_node n (x :: xs) out -> infer_node value opset n = IOk (aty o) -> node_ok out.
  Proof.
    intros K I Ra Ta Kn Sl St Kk Le G O T. rewrite I in G. inversion G as [|? ? ? ? Ga Gr]; subst. clear G.
    destruct (given_array _ _ _ Ra Ga Ta) as (d & l & E & -> & -> & F & D). rewrite nat_N_Z in *.
    set (x := mkT [N.of_nat (length l)] (map (conv d) l)) in *.
    assert (exists z, onnx_slice [c] x = Some z /\ Forall (fun t => fst t = I64 \/ fst t = I32) xs /\ out = (d, z)) as (z & Z0 & Ft & ->).
    { clearbody x. inversion O; subst; try other. match goal with H : slice_inputs _ = Some ?cs |- _ => assert (cs = [c]) as -> by (pose proof (eq_trans (eq_sym Sl) H) as Q; injection Q as Q; auto) end.
      eauto. }
    destruct (slice_conf_ok _ _ _ _ _ _ I Ta Kn Gr Ft Sl ltac:(lia)) as (ax & SC & R1 & R2).
    apply slice_1 in Z0; [|apply position_1]. destruct Z0 as (r & M & ->).
    pose proof (mapo_len _ _ _ M) as Lr. rewrite kept_count in Lr.
    rewrite <- (map_length (conv d) l) in M.
    rewrite kept_every in M; [|lia|rewrite map_length; exact Le]. rewrite map_length in M. injection M as M.
    set (va := clamp 0 (Z.of_nat (length l)) (from_end (Z.of_nat (length l)) (c_start c))) in *.
    set (vb := clamp 0 (Z.of_nat (length l)) (from_end (Z.of_nat (length l)) (c_stop c))) in *.
    assert (Ba : 0 <= va <= Z.of_nat (length l)) by (unfold va, clamp; lia). assert (Bb : 0 <= vb <= Z.of_nat (length l)) by (unfold vb, clamp; lia).
    rewrite skipn_map, firstn_map, every_map in M. set (part := firstn (Z.to_nat (vb - va)) (skipn (Z.to_nat va) l)) in *.
    set (zs := every (Z.to_nat (c_step c)) 0 part) in *.
    assert (Ez : length zs = N.to_nat (slice_size (N.of_nat (length l)) (c_start c) (c_stop c) (c_step c))).
    { rewrite <- Lr, <- M, map_length. reflexivity. }
    infer T K KSlice. unfold infer_slice in T. rewrite SC in T. cbn [ibind] in T. unfold first_input in T. rewrite I in T. cbn [ibind] in T. rewrite Ta in T. cbn [sl_starts sl_ends sl_steps] in T.
    injection T as T. rewrite shape_slice_len_ok in T by (assumption || lia). set (len := slice_size _ _ _ _) in *.
    gen K KSlice. rewrite I, Ho. unfold gen_slice. rewrite Ta, <- T, SC. cbn [sl_starts sl_ends sl_steps].
    assert (Fz : Forall (okz d) zs).
    { eapply Forall_sub; [exact F|]. intros w Hw. apply every_In in Hw. apply firstn_In, skipn_In in Hw. exact Hw. }
    eexists _, (RShape zs). split; [reflexivity|]. cbn [fst snd]. split.
    2:{ rewrite <- M, map_length. replace len with (N.of_nat (length zs)) by lia. apply conv_stands; assumption. }
    rewrite nat_N_Z.
    replace (Z.to_N (if c_start c <? 0 then _ else _)) with (Z.to_N va) by (unfold va, clamp, from_end; destruct (Z.ltb_spec (c_start c) 0); lia).
    replace (if c_stop c =? 9223372036854775807 then _ else _) with (Z.to_N vb) by (unfold vb, clamp, from_end; destruct (Z.eqb_spec (c_stop c) 9223372036854775807), (Z.ltb_spec (c_stop c) 0); lia).
    assert (Rg : range l (Z.to_N va) (Z.to_N vb) = Some part).
    { unfold range. replace (Z.to_N va <=? Z.to_N vb)%N with true by lia. replace (Z.to_N vb <=? N.of_nat (length l))%N with true by lia. cbn [andb].
      unfold part. do 2 f_equal; [lia|f_equal; lia]. }
    destruct (Z.eqb_spec (c_step c) 1) as [E1|E1].
    - cbn [exec]. unfold arr. rewrite E. cbn [obind]. rewrite Rg. cbn [obind]. unfold zs in *. rewrite E1 in *. change (Z.to_nat 1) with 1%nat in *. rewrite every_1 in *.
      unfold array. replace (N.of_nat (length part) =? len)%N with true by lia. reflexivity.
    - replace (c_step c =? -1) with false by lia. cbn [exec]. unfold arr. rewrite E. cbn [obind]. rewrite Rg. cbn [obind].
      replace (c_step c <? 0) with false by lia. rewrite Z.abs_eq by lia. fold zs. unfold into_zeros.
      replace (N.of_nat (length zs) <=? len)%N with true by lia. replace (N.to_nat len - length zs)%nat with 0%nat by lia. cbn [repeat]. rewrite app_nil_r. reflexivity.
  Qed.

  Lemma node_all ins out : Forall2 given (ninputs n) ins -> covered known n ins -> onnx_node n ins out ->
    infer_node value opset n = IOk (aty o) -> node_ok out.
  Proof.
    intros G C O T.
    destruct C.
    all: try match goal with I : ninputs n = _ |- _ => pose proof G as G'; rewrite I in G'; inversion G' as [|? ? ? ? Ga Gr]; subst; clear G' end.
    all: repeat match goal with Q : Forall2 given (_ :: _) (_ :: _) |- _ => inversion Q; subst; clear Q end.
    - eapply node_binary; eauto.
    - eapply node_shape; eauto.
    - eapply node_shape_array; eauto.
    - eapply node_gather_scalar; eauto.
    - eapply node_gather_array; eauto.
    - eapply node_concat; eauto.
    - eapply node_slice; eauto.
    - eapply node_squeeze; eauto.
    - eapply node_unsqueeze; eauto.
    - eapply node_where_items; eauto.
    - eapply node_where_whole; eauto.
    - eapply node_where_scalar; eauto.
    - eapply node_cast; eauto.
    - eapply node_reshape; eauto.
  Qed.
End Node.

(** ** A list of nodes *)
Section Body.
  Variable value : arg -> option cval.
  Variable opset : N.
  Variable ty : string -> argty.
  Notation known := (fun a => constant_of value a <> None).
  Definition constants_ok (oe : oenv) (ns : list rnode) : Prop :=
    forall a c, In a (flat_map ninputs ns) -> constant_of value a = Some c ->
      (twf (snd c) /\ Forall (in_dtype (fst c)) (tdata (snd c))) /\
      (run_time a -> oe (aname a) = Some c /\ ~ In (aname a) (map aname (flat_map noutputs ns))).
  Lemma given_all oe e args ins : holds ty oe e ->
    (forall a, In a args -> run_time a -> aty a = ty (aname a)) ->
    (forall a c, In a args -> constant_of value a = Some c ->
      (twf (snd c) /\ Forall (in_dtype (fst c)) (tdata (snd c))) /\ (run_time a -> oe (aname a) = Some c)) ->
    mapo (input_of (constant_of value) oe) args = Some ins -> Forall2 (given value e) args ins.
  Proof.
    intros Hh. revert ins. induction args as [|a args IH]; intros ins Ht Hc M; cbn in M; [injection M as <-; constructor|].
    destruct (input_of (constant_of value) oe a) as [t|] eqn:It; [|discriminate M]. destruct (mapo _ args) as [ts|]; [|discriminate M]. injection M as <-.
    constructor; [|apply IH; [intros; apply Ht; [right; assumption|assumption]|intros; apply Hc; [right; assumption|assumption]|reflexivity]].
    unfold input_of in It. unfold given. destruct (constant_of value a) as [c|] eqn:Ca.
    - injection It as <-. destruct (Hc a c (or_introl eq_refl) Ca) as [W R]. split; [intros c0 E; injection E as ->; reflexivity|]. split; [exact W|].
      intros Ra. rewrite (Ht a (or_introl eq_refl) Ra). apply Hh, R, Ra.
    - split; [discriminate|]. destruct (Hh _ _ It) as (v & E & S). split; [destruct S as (W & F & _); split; assumption|].
      intros Ra. exists v. rewrite (Ht a (or_introl eq_refl) Ra). split; assumption.
  Qed.
  Lemma body_ok ns oe oe' : runs (constant_of value) (fun n ins t => onnx_node n ins t /\ covered known n ins) ns oe oe' ->
    (forall a, In a (flat_map ninputs ns) -> run_time a -> aty a = ty (aname a)) ->
    (forall o, In o (flat_map noutputs ns) -> aty o = ty (aname o)) ->
    (forall n o, In n ns -> noutputs n = [o] -> infer_node value opset n = IOk (aty o)) ->
    constants_ok oe ns -> forall e, holds ty oe e ->
    exists body e', gen_body value ns = Some body /\ exec_body body e = Some e' /\ holds ty oe' e'.
  Proof.
    induction 1 as [oe|n ns oe oe' o ins t Ho M [St Cv] R IH]; intros Ti To In Hc e Hh.
    { exists [], e. auto. }
    assert (G : Forall2 (given value e) (ninputs n) ins).
    { eapply given_all; [exact Hh| | |exact M].
      - intros a Ha. apply Ti. cbn. apply in_or_app. left. exact Ha.
      - intros a c Ha Ca. destruct (Hc a c) as [W R1]; [cbn; apply in_or_app; left; exact Ha|exact Ca|]. split; [exact W|]. intros Ra. apply R1, Ra. }
    destruct (node_all value opset n e o Ho ins t G Cv St (In n o (or_introl eq_refl) Ho)) as (s & v & Gs & Es & Vs).
    destruct IH with (e := bind e (aname o) v) as (body & e' & Gb & Eb & He').
    - intros a Ha. apply Ti. cbn. apply in_or_app. right. exact Ha.
    - intros o' Ha. apply To. cbn. apply in_or_app. right. exact Ha.
    - intros n' o' Hn. apply In. right. exact Hn.
    - intros a c Ha Ca. destruct (Hc a c) as [W R1]; [cbn; apply in_or_app; right; exact Ha|exact Ca|]. split; [exact W|]. intros Ra.
      destruct (R1 Ra) as [E N1]. cbn in N1. rewrite map_app, in_app_iff, Ho in N1. split; [|intros Hn; apply N1; right; exact Hn].
      unfold bind. destruct (String.eqb_spec (aname a) (aname o)) as [E1|]; [|exact E]. elim N1. left. left. symmetry. exact E1.
    - intros x t' Hx. unfold bind in *. destruct (String.eqb_spec x (aname o)) as [->|]; [|apply Hh, Hx]. injection Hx as <-. exists v. split; [reflexivity|].
      rewrite <- (To o); [exact Vs|]. cbn. rewrite Ho. left. reflexivity.
    - exists ((aname o, s) :: body), e'. cbn [gen_body]. rewrite Ho, Gs, Gb. split; [reflexivity|]. cbn [exec_body]. rewrite Es. cbn [obind]. split; assumption.
  Qed.
End Body.
