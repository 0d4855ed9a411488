(** Proofs about the code emitted for Col2Im. *)
From Coq Require Import Lia ZifyBool ZifyNat ZifyN.
From Verif Require Import Col2Im_Model ShapeOps_Model TensorRun_Model Recur_Model BinOps_Spec Tensor_Proofs Lines_Proofs BinOps_Proofs Conv_Proofs Index_Proofs.
Import Lines_Model Col2Im_Spec Tensor_Spec.
Local Open Scope N_scope.

Lemma mapo_const {A B} (f : A -> option B) (g : A -> B) l : (forall x, In x l -> f x = Some (g x)) -> mapo f l = Some (map g l).
Proof.
  induction l as [|a l IH]; intros H; cbn; [reflexivity|]. rewrite (H a (or_introl eq_refl)), IH; [reflexivity|].
  intros x Hx. apply H. right. exact Hx.
Qed.
Lemma map_nth_upto {A} (d : A) (l : list A) : map (fun k => nth (N.to_nat k) l d) (upto (N.of_nat (length l))) = l.
Proof.
  unfold upto. rewrite map_map, Nat2N.id. rewrite (map_ext _ (fun k => nth k l d)) by (intros; rewrite Nat2N.id; reflexivity).
  apply nth_error_ext. intros k. rewrite nth_error_map. destruct (Nat.lt_ge_cases k (length l)) as [H|H].
  - rewrite (nth_error_nth' _ 0%nat) by (rewrite seq_length; exact H). rewrite seq_nth by exact H. cbn. symmetry. apply nth_error_nth'. exact H.
  - rewrite (proj2 (nth_error_None (seq 0 (length l)) k)) by (rewrite seq_length; lia). symmetry. apply nth_error_None. lia.
Qed.
Lemma elementwise_broadcast {A} (op : A -> A -> A) x y : elementwise op x y = broadcast2 (fun a b => Some (op a b)) x y.
Proof.
  unfold elementwise, broadcast2. destruct (bshape (tshape x) (tshape y)) as [s|]; [|reflexivity]. apply tab_ext. intros i _.
  destruct (get x _), (get y _); reflexivity.
Qed.

Lemma bdim_1l b : bdim 1 b = Some b.
Proof. unfold bdim. rewrite (N.eqb_refl 1). destruct (N.eqb_spec 1 b); subst; reflexivity. Qed.
Lemma bdim_1r a : bdim a 1 = Some a.
Proof. unfold bdim. rewrite (N.eqb_refl 1). destruct (N.eqb_spec a 1); subst; reflexivity. Qed.

(** A column and a row. *)
Definition sums (u w : list Z) : list Z := flat_map (fun x => map (fun y => (x + y)%Z) w) u.
Lemma sums_nth (u w : list Z) : sums u w = flat_map (fun i => map (fun j => (nth (N.to_nat i) u 0 + nth (N.to_nat j) w 0)%Z) (upto (N.of_nat (length w)))) (upto (N.of_nat (length u))).
Proof.
  unfold sums. transitivity (flat_map (fun x => map (fun y => (x + y)%Z) w) (map (fun k => nth (N.to_nat k) u 0%Z) (upto (N.of_nat (length u))))).
  - rewrite map_nth_upto. reflexivity.
  - rewrite !flat_map_concat_map, map_map. f_equal. apply map_ext. intros i.
    transitivity (map (fun y => (nth (N.to_nat i) u 0 + y)%Z) (map (fun k => nth (N.to_nat k) w 0%Z) (upto (N.of_nat (length w))))).
    + rewrite map_nth_upto. reflexivity.
    + apply map_map.
Qed.
Lemma column_row (u w : list Z) a b : N.of_nat (length u) = a -> N.of_nat (length w) = b ->
  elementwise Z.add (mkT [a; 1] u) (mkT [1; b] w) = Some (mkT [a; b] (sums u w)).
Proof.
  intros Ha Hb. unfold elementwise. cbn [tshape].
  assert (E : bshape [a; 1] [1; b] = Some [a; b]).
  { unfold bshape. cbn [rev app brev]. rewrite bdim_1l, bdim_1r. reflexivity. }
  rewrite E. unfold tab.
  rewrite (mapo_const _ (fun i => match i with [i; j] => (nth (N.to_nat i) u 0 + nth (N.to_nat j) w 0)%Z | _ => 0%Z end)).
  - cbn [option_map]. f_equal. f_equal. cbn [indices flat_map map]. rewrite (sums_nth u w), Ha, Hb.
    rewrite !flat_map_concat_map, concat_map, !map_map. f_equal. apply map_ext. intros i.
    rewrite map_map, concat_map, map_map. cbn. induction (upto b) as [|j l IH]; cbn; [reflexivity|]. f_equal. exact IH.
  - intros i Hi. apply indices_In in Hi. inversion Hi as [|i1 d1 r1 s1 H1 Hr]; subst. inversion Hr as [|i2 d2 r2 s2 H2 Hn]; subst. inversion Hn; subst.
    assert (P1 : bproj [N.of_nat (length u); 1] [i1; i2] = [i1; 0]).
    { unfold bproj. cbn. destruct (N.eqb_spec (N.of_nat (length u)) 1); [|reflexivity]. f_equal. lia. }
    assert (P2 : bproj [1; N.of_nat (length w)] [i1; i2] = [0; i2]).
    { unfold bproj. cbn. destruct (N.eqb_spec (N.of_nat (length w)) 1); [|reflexivity]. do 2 f_equal. lia. }
    rewrite P1, P2. unfold get. cbn [tshape tdata offset prodN].
    replace (N.to_nat (i1 * (1 * 1) + (0 * 1 + 0))) with (N.to_nat i1) by lia.
    replace (N.to_nat (0 * (N.of_nat (length w) * 1) + (i2 * 1 + 0))) with (N.to_nat i2) by lia.
    rewrite (nth_error_nth' u 0%Z) by lia. rewrite (nth_error_nth' w 0%Z) by lia. reflexivity.
Qed.
Lemma row_column (u w : list Z) a b : N.of_nat (length u) = a -> N.of_nat (length w) = b ->
  elementwise Z.add (mkT [1; b] w) (mkT [a; 1] u) = Some (mkT [a; b] (sums u w)).
Proof.
  intros Ha Hb. rewrite <- (column_row u w a b Ha Hb). rewrite !elementwise_broadcast, broadcast2_flip.
  unfold broadcast2. destruct (bshape _ _); [|reflexivity]. apply tab_ext. intros i _.
  repeat match goal with |- context [get ?t ?i] => destruct (get t i) end; try reflexivity. f_equal. lia.
Qed.

(** ** The sum of the terms *)
Fixpoint dot (ms i : list N) : N := match ms, i with m :: ms, j :: i => j * m + dot ms i | _, _ => 0 end.
Fixpoint weights (fs pd : list N) : list N := match fs, pd with f :: fs, _ :: pd => f * prodN pd :: weights fs pd | _, _ => [] end.
Definition lin (ms : list N) (s : list N) : list Z := map (fun i => Z.of_N (dot ms i)) (indices s).

Lemma sums_lin m1 m2 a b : sums (map (fun j => Z.of_N (j * m1)) (upto a)) (map (fun j => Z.of_N (j * m2)) (upto b)) = lin [m1; m2] [a; b].
Proof.
  unfold sums, lin. cbn [indices flat_map map]. rewrite !flat_map_concat_map, concat_map, !map_map. f_equal. apply map_ext. intros i.
  rewrite !map_map, concat_map, map_map. cbn. induction (upto b) as [|j l IH]; cbn; [reflexivity|]. f_equal; [lia|exact IH].
Qed.
Lemma len_arange n m : N.of_nat (length (map (fun j => Z.of_N (j * m)) (upto n))) = n.
Proof. rewrite map_length, upto_length. lia. Qed.
Lemma terms_1 a m : sum_terms [mkTerm a m [a]] = Some (mkT [a] (lin [m] [a])).
Proof.
  unfold sum_terms, run_term, b_reshape, reshape_flat. cbn [fold_left t_shape t_size t_mult tdata prodN]. rewrite len_arange.
  replace (a =? a * 1) with true by (symmetry; apply N.eqb_eq; lia). f_equal. f_equal. unfold lin. cbn.
  induction (upto a) as [|j l IH]; cbn; [reflexivity|]. f_equal; [lia|exact IH].
Qed.
Lemma terms_2 a b m1 m2 : sum_terms [mkTerm b m2 [1; b]; mkTerm a m1 [a; 1]] = Some (mkT [a; b] (lin [m1; m2] [a; b])).
Proof.
  unfold sum_terms, run_term, b_reshape, reshape_flat. cbn [fold_left t_shape t_size t_mult tdata prodN obind]. rewrite !len_arange.
  replace (b =? 1 * (b * 1)) with true by (symmetry; apply N.eqb_eq; lia). replace (a =? a * (1 * 1)) with true by (symmetry; apply N.eqb_eq; lia).
  cbn [obind]. rewrite (row_column _ _ a b) by apply len_arange. rewrite sums_lin. reflexivity.
Qed.
Lemma lin_length ms s : N.of_nat (length (lin ms s)) = prodN s.
Proof. unfold lin. rewrite map_length, indices_length. lia. Qed.

(** ** Places *)
Lemma place_dot : forall pd ss dl q b, length ss = length pd -> length dl = length pd -> length q = length pd -> length b = length pd ->
  offset pd (place_of ss dl q b) = dot (weights dl pd) b + dot (weights ss pd) q.
Proof.
  induction pd as [|p pd IH]; intros [|s ss] [|d dl] [|i q] [|j b]; cbn; intros; try discriminate; [reflexivity|].
  rewrite IH by lia. nia.
Qed.
Lemma place_in : forall ps ks ss dl q b, length ks = length ps -> length ss = length ps -> length dl = length ps ->
  all_positive ks -> all_positive ss -> Forall2 N.le (block_extents ks dl) ps ->
  valid_idx (block_counts ps ks ss dl) q -> valid_idx ks b -> valid_idx ps (place_of ss dl q b).
Proof.
  induction ps as [|p ps IH]; intros [|k ks] [|s ss] [|d dl] q b; cbn; intros L1 L2 L3 Pk Ps F Vq Vb; try discriminate.
  - inversion Vq; subst. constructor.
  - inversion Pk; subst. inversion Ps; subst. inversion F; subst. inversion Vq as [|i ? qr ? Hi Hq]; subst. inversion Vb as [|j ? br ? Hj Hb]; subst.
    constructor; [|apply (IH ks); auto; lia]. unfold extent in *.
    assert (i * s <= p - ((k - 1) * d + 1)).
    { assert (i <= (p - ((k - 1) * d + 1)) / s) by lia. transitivity (s * ((p - ((k - 1) * d + 1)) / s)); [nia|]. apply N.mul_div_le. lia. }
    assert (j * d <= (k - 1) * d) by (apply N.mul_le_mono_r; lia). lia.
Qed.
Lemma counts_len : forall ps ks ss dl, length ks = length ps -> length ss = length ps -> length dl = length ps -> length (block_counts ps ks ss dl) = length ps.
Proof. induction ps as [|p ps IH]; intros [|k ks] [|s ss] [|d dl]; cbn; intros; try discriminate; auto. Qed.
Lemma add_len : forall a b, length b = length a -> length (add_lists a b) = length a.
Proof. induction a as [|x a IH]; intros [|y b]; cbn; intros; try discriminate; auto. Qed.
Lemma place_len : forall ss dl q b, length dl = length ss -> length q = length ss -> length b = length ss -> length (place_of ss dl q b) = length ss.
Proof. induction ss as [|x a IH]; intros [|] [|] [|]; cbn; intros; try discriminate; auto. Qed.

(** ** Products *)
Lemma list_prod_flat {A B} (l : list A) (m : list B) : list_prod l m = flat_map (fun x => map (pair x) m) l.
Proof. induction l as [|a l IH]; cbn; [reflexivity|]. rewrite IH. reflexivity. Qed.
Lemma sums_prod (f g : list N -> N) (B Q : list (list N)) :
  sums (map (fun i => Z.of_N (f i)) B) (map (fun i => Z.of_N (g i)) Q) = map (fun bq => Z.of_N (f (fst bq) + g (snd bq))) (list_prod B Q).
Proof.
  unfold sums. rewrite list_prod_flat. induction B as [|b B IH]; cbn; [reflexivity|]. rewrite map_app, IH, !map_map. f_equal.
  apply map_ext. intros q. cbn. lia.
Qed.
Lemma indices_at s k i : nth_error (indices s) k = Some i -> valid_idx s i /\ N.to_nat (offset s i) = k.
Proof.
  intros H. assert (V : valid_idx s i) by (apply indices_In; eapply nth_error_In; exact H). split; [exact V|].
  pose proof (indices_offset s i V) as E. pose proof (indices_NoDup s) as D. rewrite NoDup_nth_error in D. symmetry. apply D.
  - apply nth_error_Some. rewrite H. discriminate.
  - rewrite H, E. reflexivity.
Qed.
Lemma prod_at s u k bq : nth_error (list_prod (indices s) (indices u)) k = Some bq ->
  valid_idx s (fst bq) /\ valid_idx u (snd bq) /\ N.of_nat k = offset s (fst bq) * prodN u + offset u (snd bq).
Proof.
  intros H. rewrite list_prod_flat in H. set (L := length (indices u)) in *.
  assert (HL : (0 < L)%nat).
  { destruct L eqn:E; [|lia]. destruct (indices u) as [|i l] eqn:Eu; [|cbn in E; unfold L in *; discriminate].
    exfalso. clear -H. induction (indices s) as [|x l IH] in k, H |- *; cbn in H; [destruct k; discriminate|]. exact (IH k H). }
  replace k with (k / L * L + k mod L)%nat in H by (rewrite (Nat.div_mod k L) at 3; lia).
  rewrite (nth_error_flat_map _ L) in H.
  - destruct (nth_error (indices s) (k / L)) as [b|] eqn:Eb; [|discriminate]. rewrite nth_error_map in H.
    destruct (nth_error (indices u) (k mod L)) as [q|] eqn:Eq; [|discriminate]. cbn in H. injection H as <-. cbn.
    destruct (indices_at _ _ _ Eb) as [V1 O1]. destruct (indices_at _ _ _ Eq) as [V2 O2]. split; [exact V1|]. split; [exact V2|].
    assert (EL : L = N.to_nat (prodN u)) by apply indices_length. pose proof (Nat.div_mod k L). nia.
  - intros x _. rewrite map_length. reflexivity.
  - apply Nat.mod_upper_bound. lia.
Qed.
Lemma flat_map_upto {A B} (h : N -> list B) (g : A -> list B) (l : list A) :
  (forall k a, nth_error l k = Some a -> h (N.of_nat k) = g a) -> flat_map h (upto (N.of_nat (length l))) = flat_map g l.
Proof.
  unfold upto. rewrite Nat2N.id. revert h. induction l as [|a l IH]; intros h H; [reflexivity|]. cbn [length seq map flat_map].
  f_equal; [apply (H 0%nat); reflexivity|]. rewrite <- seq_shift, map_map. rewrite <- (IH (fun k => h (N.succ k))).
  - clear. rewrite !flat_map_concat_map, !map_map. f_equal. apply map_ext. intros k. f_equal. lia.
  - intros k b Hk. rewrite <- (H (S k) b Hk). f_equal. lia.
Qed.

(** ** The canvas *)
Lemma flat_map_flat {A B C} (f : B -> list C) (g : A -> list B) l : flat_map f (flat_map g l) = flat_map (fun x => flat_map f (g x)) l.
Proof. induction l as [|a l IH]; cbn; [reflexivity|]. rewrite flat_map_app, IH. reflexivity. Qed.
Lemma flat_map_of_map {A B C} (f : B -> list C) (h : A -> B) l : flat_map f (map h l) = flat_map (fun x => f (h x)) l.
Proof. induction l as [|a l IH]; cbn; [reflexivity|]. rewrite IH. reflexivity. Qed.
Lemma flat_map_same {A B} (f g : A -> list B) l : (forall x, In x l -> f x = g x) -> flat_map f l = flat_map g l.
Proof. induction l as [|a l IH]; cbn; intros H; [reflexivity|]. rewrite H by auto. rewrite IH by auto. reflexivity. Qed.
Lemma upto_nodup n : NoDup (upto n).
Proof. unfold upto. apply FinFun.Injective_map_NoDup; [intros a b; lia|apply seq_NoDup]. Qed.
Lemma valid3 a b c i j k : valid_idx [a; b; c] [i; j; k] <-> i < a /\ j < b /\ k < c.
Proof.
  split.
  - intros H. inversion H; subst. match goal with H : Forall2 _ [_; _] _ |- _ => inversion H; subst end.
    match goal with H : Forall2 _ [_] _ |- _ => inversion H; subst end. auto.
  - intros (? & ? & ?). repeat (constructor; [assumption|]). constructor.
Qed.
Lemma valid3_inv a b c i : valid_idx [a; b; c] i -> exists x y z, i = [x; y; z] /\ x < a /\ y < b /\ z < c.
Proof.
  intros H. inversion H as [|x ? r1 ? Hx H1]; subst. inversion H1 as [|y ? r2 ? Hy H2]; subst. inversion H2 as [|z ? r3 ? Hz H3]; subst. inversion H3; subst.
  exists x, y, z. auto.
Qed.
Lemma canvas_ok {T} (add : T -> T -> T) zero (Nb C Tt P : N) (I : list N) (ixe : tensor Z) (flat : tensor T) :
  tshape ixe = [Nb; C; Tt] -> tshape flat = [Nb; C; Tt] -> twf flat ->
  (forall n c k, n < Nb -> c < C -> k < Tt -> get ixe [n; c; k] = Some (Z.of_N (nth (N.to_nat k) I 0))) ->
  (forall k, k < Tt -> nth (N.to_nat k) I 0 < P) ->
  exists y, b_scatter add 2 ixe flat (b_fill [Nb; C; P] zero) = Some y /\ twf y /\ tshape y = [Nb; C; P] /\
    forall n c p, n < Nb -> c < C -> p < P ->
      get y [n; c; p] = Some (fold_left add (flat_map (fun k => match get flat [n; c; k] with Some v => if nth (N.to_nat k) I 0 =? p then [v] else [] | None => [] end) (upto Tt)) zero).
Proof.
  intros Si Sf W Gi HP. unfold b_scatter. cbn [b_fill tshape]. rewrite Si, Sf.
  change (same_but 2 [Nb; C; P] [Nb; C; Tt]) with (same_but 2 ([Nb; C] ++ P :: []) ([Nb; C] ++ Tt :: [])). rewrite same_but_ok by reflexivity. destruct (list_eq_dec N.eq_dec [Nb; C; Tt] [Nb; C; Tt]) as [_|?]; [|contradiction]. cbn [andb].
  destruct (fill_get [Nb; C; P] zero) as [Wx Gx].
  assert (TG : forall n c k, n < Nb -> c < C -> k < Tt -> b_target 2 ixe [Nb; C; P] [n; c; k] = Some [n; c; nth (N.to_nat k) I 0]).
  { intros n c k Hn Hc Hk. unfold b_target. rewrite Gi by assumption. change (N.to_nat 2) with 2%nat. cbn [nth_error firstn skipn app].
    pose proof (HP k Hk). set (v := nth (N.to_nat k) I 0) in *. replace ((0 <=? Z.of_N v)%Z && (Z.of_N v <? Z.of_N P)%Z) with true by lia.
    rewrite N2Z.id. reflexivity. }
  destruct (scatter_fold add (b_target 2 ixe [Nb; C; P]) flat [Nb; C; P] (indices [Nb; C; Tt]) (b_fill [Nb; C; P] zero) Wx eq_refl) as (y & Hy & Wy & Sy & Gy).
  { intros j Hj. apply indices_In in Hj. pose proof Hj as Hj'. destruct (valid3_inv _ _ _ _ Hj) as (n & c & k & -> & Hn & Hc & Hk).
    destruct (get_valid flat [n; c; k] W) as (v & Gv & _); [rewrite Sf; exact Hj'|].
    eexists _, v. split; [apply TG; assumption|]. split; [|exact Gv]. apply valid3. auto. }
  exists y. split; [exact Hy|]. split; [exact Wy|]. split; [exact Sy|]. intros n c p Hn Hc Hp.
  rewrite Gy by (apply valid3; auto). rewrite Gx by (apply valid3; auto). cbn [option_map]. do 2 f_equal. unfold hits.
  cbn [indices]. rewrite flat_map_flat. rewrite (flat_map_one _ _ n); [|apply upto_nodup|apply upto_In; exact Hn|].
  - rewrite flat_map_of_map, flat_map_flat. rewrite (flat_map_one _ _ c); [|apply upto_nodup|apply upto_In; exact Hc|].
    + rewrite flat_map_of_map, flat_map_flat. apply flat_map_same. intros k Hk. apply upto_In in Hk. cbn [map flat_map]. rewrite app_nil_r.
      rewrite TG by assumption. destruct (get flat [n; c; k]); [|reflexivity].
      destruct (list_eq_dec N.eq_dec _ _) as [E|E]; destruct (N.eqb_spec (nth (N.to_nat k) I 0) p) as [E'|E']; try reflexivity.
      * injection E as E. contradiction.
      * subst p. contradiction.
    + intros c' Hc' Hne. apply upto_In in Hc'. rewrite flat_map_of_map, flat_map_flat. apply flat_map_none. intros k Hk. apply upto_In in Hk. cbn [map flat_map]. rewrite app_nil_r.
      rewrite TG by assumption. destruct (get flat _); [|reflexivity]. destruct (list_eq_dec N.eq_dec _ _) as [E|E]; [|reflexivity]. injection E as E _. contradiction.
  - intros n' Hn' Hne. apply upto_In in Hn'. rewrite flat_map_of_map, flat_map_flat. apply flat_map_none. intros c' Hc'. apply upto_In in Hc'. rewrite flat_map_of_map, flat_map_flat.
    apply flat_map_none. intros k Hk. apply upto_In in Hk. cbn [map flat_map]. rewrite app_nil_r.
    rewrite TG by assumption. destruct (get flat _); [|reflexivity]. destruct (list_eq_dec N.eq_dec _ _) as [E|E]; [|reflexivity]. injection E as E _ _. contradiction.
Qed.

(** ** The indices *)
Lemma run_indices_ok g c k : geometry_ok k g ->
  cc_block c = prodN (g_block g) -> cc_windows c = prodN (counts_of g) ->
  sum_terms (cc_blocks c) = Some (mkT (g_block g) (lin (weights (g_dilation g) (padded g)) (g_block g))) ->
  sum_terms (cc_offsets c) = Some (mkT (counts_of g) (lin (weights (g_stride g) (padded g)) (counts_of g))) ->
  run_indices c = Some (mkT [prodN (g_block g) * prodN (counts_of g)]
    (map (fun bq => Z.of_N (offset (padded g) (place_of (g_stride g) (g_dilation g) (snd bq) (fst bq)))) (list_prod (indices (g_block g)) (indices (counts_of g))))).
Proof.
  intros (L1 & L2 & L3 & L4 & L5 & L6 & _) Eb Ew Hb Hw. unfold run_indices. rewrite Hb, Hw, Eb, Ew. cbn [obind].
  unfold b_reshape at 1, reshape_flat. cbn [tdata prodN]. rewrite lin_length. replace (prodN (g_block g) =? prodN (g_block g) * (1 * 1)) with true by lia. cbn [obind].
  unfold b_reshape at 1, reshape_flat. cbn [tdata prodN]. rewrite lin_length. replace (prodN (counts_of g) =? 1 * (prodN (counts_of g) * 1)) with true by lia. cbn [obind].
  rewrite (column_row _ _ _ _ (lin_length _ _) (lin_length _ _)). cbn [obind tshape]. unfold b_reshape, reshape_flat. cbn [tdata prodN].
  unfold lin. rewrite sums_prod, map_length, prod_length, !indices_length.
  replace (N.of_nat (N.to_nat (prodN (g_block g)) * N.to_nat (prodN (counts_of g))) =? prodN (g_block g) * (prodN (counts_of g) * 1) * 1) with true by lia.
  f_equal. f_equal; [f_equal; lia|]. apply map_ext_in. intros [b q] Hbq. apply in_prod_iff in Hbq. destruct Hbq as [Vb Vq]. apply indices_In in Vb, Vq. cbn.
  apply valid_len in Vb, Vq. assert (Lp : length (padded g) = k) by (unfold padded; rewrite !add_len; [exact L1|congruence|rewrite add_len; congruence]).
  unfold counts_of in Vq. rewrite counts_len in Vq by congruence. rewrite place_dot by congruence. reflexivity.
Qed.

(** ** Running the code *)
Lemma mapo_filter {A B} (F : A -> option B) (t t' : A -> bool) L : (forall x, In x L -> F x <> None /\ t x = t' x) ->
  mapo F (filter t L) = Some (flat_map (fun x => match F x with Some v => if t' x then [v] else [] | None => [] end) L).
Proof.
  induction L as [|a L IH]; cbn; intros H; [reflexivity|]. destruct (H a (or_introl eq_refl)) as [Ha Ht]. rewrite <- Ht. destruct (F a) as [v|] eqn:E; [|contradiction].
  pose proof (IH (fun x Hx => H x (or_intror Hx))) as IH'.
  destruct (t a); cbn; [rewrite E|]; rewrite IH'; reflexivity.
Qed.
Lemma flat_get {T} (x : tensor T) (n ch BP L : N) a c o q : tshape x = [n; ch * BP; L] ->
  get (mkT [n; ch; BP * L] (tdata x)) [a; c; o * L + q] = get x [a; c * BP + o; q].
Proof. intros E. unfold get. rewrite E. cbn [tshape tdata offset prodN]. apply f_equal, f_equal. ring. Qed.
Lemma tail_get {T} (t : tensor T) (n ch : N) pd i j z : tshape t = [n; ch; prodN pd] -> get (mkT (n :: ch :: pd) (tdata t)) (i :: j :: z) = get t [i; j; offset pd z].
Proof. intros E. unfold get. rewrite E. cbn [tshape tdata offset prodN]. apply f_equal, f_equal. ring. Qed.
Lemma tail_wf {T} (t : tensor T) (n ch : N) pd : tshape t = [n; ch; prodN pd] -> twf t -> twf (mkT (n :: ch :: pd) (tdata t)).
Proof. unfold twf. intros E. rewrite E. cbn [tshape tdata prodN]. intros ->. apply f_equal. ring. Qed.
Lemma shifted : forall im y b e, length b = length im -> length e = length im -> valid_idx im y -> valid_idx (add_lists (add_lists im b) e) (add_lists y b).
Proof.
  induction im as [|d im IH]; intros y [|b bs] [|e es]; cbn; intros L1 L2 V; try discriminate; inversion V; subst; cbn; [constructor|].
  constructor; [lia|]. apply IH; auto.
Qed.
Lemma unpadded : forall im b, length b = length im -> forallb (N.eqb 0) b = true -> add_lists im b = im.
Proof. induction im as [|d im IH]; intros [|b bs]; cbn [forallb add_lists length]; intros L H; try discriminate; [reflexivity|]. apply andb_true_iff in H. destruct H as [H1 H2]. f_equal; [lia|]. apply IH; auto. Qed.

Definition ranges (g : geometry) : option (list (N * N)) :=
  if forallb (N.eqb 0) (g_begin g) && forallb (N.eqb 0) (g_end g) then None
  else Some (map (fun be => (fst be, fst be + snd be)) (combine (g_begin g) (g_image g))).
Lemma range_sizes : forall b im, length b = length im -> map (fun r => snd r - fst r) (map (fun be => (fst be, fst be + snd be)) (combine b im)) = im.
Proof. induction b as [|x b IH]; intros [|y im]; cbn; intros L; try discriminate; [reflexivity|]. f_equal; [lia|]. apply IH. auto. Qed.
Lemma range_fits : forall b im e, length b = length im -> length e = length im ->
  forallb (fun p : N * N * N => snd (fst p) <=? snd p) (combine (map (fun be => (fst be, fst be + snd be)) (combine b im)) (add_lists (add_lists im b) e)) = true.
Proof. induction b as [|x b IH]; intros [|y im] [|z e]; cbn; intros L1 L2; try discriminate; [reflexivity|]. rewrite IH by auto. destruct (N.leb_spec (x + y) (y + x + z)); [reflexivity|lia]. Qed.
Lemma range_shift : forall b im y, length b = length im -> length y = length im ->
  map (fun p : N * N * N => fst (fst p) + snd p) (combine (map (fun be => (fst be, fst be + snd be)) (combine b im)) y) = add_lists y b.
Proof. induction b as [|x b IH]; intros [|d im] [|z y]; cbn; intros L1 L2; try discriminate; [reflexivity|]. f_equal; [lia|]. apply IH; auto. Qed.

Lemma run_ok {T} (add : T -> T -> T) zero d g c k Nb Ch (x : tensor T) : geometry_ok k g ->
  cc_block c = prodN (g_block g) -> cc_windows c = prodN (counts_of g) -> cc_padded c = prodN (padded g) -> cc_dims c = padded g -> cc_slice c = ranges g ->
  sum_terms (cc_blocks c) = Some (mkT (g_block g) (lin (weights (g_dilation g) (padded g)) (g_block g))) ->
  sum_terms (cc_offsets c) = Some (mkT (counts_of g) (lin (weights (g_stride g) (padded g)) (counts_of g))) ->
  twf x -> columns g Nb Ch x ->
  (BinOps_Model.is_float_dtype d = true -> run_col2im add zero d c x = onnx_col2im add zero g Nb Ch x) /\ exists y, onnx_col2im add zero g Nb Ch x = Some y.
Proof.
  intros G Eb Ew Ep Ed Es Hb Hw W Sx. pose proof (run_indices_ok g c k G Eb Ew Hb Hw) as RI.
  destruct G as (L1 & L2 & L3 & L4 & L5 & L6 & Pk & Ps & Fx). unfold columns in Sx.
  set (BP := prodN (g_block g)) in *. set (L := prodN (counts_of g)) in *. set (BQ := list_prod (indices (g_block g)) (indices (counts_of g))) in *.
  set (place := fun bq : list N * list N => place_of (g_stride g) (g_dilation g) (snd bq) (fst bq)) in *.
  assert (HBP : BP <> 0). { unfold BP. clear -Pk. induction Pk; cbn; [lia|]. lia. }
  assert (Lp : length (padded g) = k) by (unfold padded; rewrite !add_len; [exact L1|congruence|rewrite add_len; congruence]).
  assert (LB : N.of_nat (length BQ) = BP * L) by (unfold BQ; rewrite prod_length, !indices_length; fold BP L; lia).
  assert (VP : forall b q, valid_idx (g_block g) b -> valid_idx (counts_of g) q -> valid_idx (padded g) (place (b, q))).
  { intros b q Vb Vq. unfold place. cbn. apply (place_in _ (g_block g)); try congruence; assumption. }
  set (I := map (fun bq => offset (padded g) (place bq)) BQ) in *.
  assert (HI : forall kk bq, nth_error BQ kk = Some bq -> nth kk I 0 = offset (padded g) (place bq)).
  { intros kk bq Hk. unfold I. apply nth_error_nth. rewrite nth_error_map, Hk. reflexivity. }
  unfold run_col2im. rewrite Sx, Eb, Ew, Ep, Ed, Es. replace (BP =? 0) with false by lia. rewrite N.div_mul by exact HBP.
  unfold b_reshape at 1, reshape_flat. unfold twf in W. rewrite W, Sx, N2Nat.id. cbn [prodN].
  replace (Nb * (Ch * BP * (L * 1)) =? Nb * (Ch * (BP * L * 1))) with true by nia. cbn [obind]. rewrite RI. cbn [obind tshape prodN].
  unfold b_reshape at 1, reshape_flat. cbn [tdata prodN]. rewrite map_length, LB. replace (BP * L =? 1 * (1 * (BP * L * 1 * 1))) with true by lia. cbn [obind].
  replace (BP * L * 1) with (BP * L) by lia.
  set (ix1 := mkT [1; 1; BP * L] _).
  assert (G1 : forall kk, kk < BP * L -> get ix1 [0; 0; kk] = Some (Z.of_N (nth (N.to_nat kk) I 0))).
  { intros kk Hk. unfold get, ix1. cbn [tshape tdata offset prodN]. replace (N.to_nat _) with (N.to_nat kk) by lia. rewrite nth_error_map.
    destruct (nth_error BQ (N.to_nat kk)) as [bq|] eqn:E; [|apply nth_error_None in E; lia]. cbn. rewrite (HI _ _ E). reflexivity. }
  assert (exists ixe, b_expand [Z.of_N Nb; Z.of_N Ch; Z.of_N (BP * L)] ix1 = Some ixe /\ tshape ixe = [Nb; Ch; BP * L] /\
            forall n c0 k0, n < Nb -> c0 < Ch -> k0 < BP * L -> get ixe [n; c0; k0] = Some (Z.of_N (nth (N.to_nat k0) I 0))) as (ixe & -> & Sie & Gie).
  { unfold b_expand. cbn [ix1 tshape length Nat.sub Nat.leb firstn forallb andb skipn combine mapo fst snd map app].
    assert (X : forall d v, v = d \/ d = 1 -> expand_dim d (Z.of_N v) = Some v).
    { intros d0 v Hd. unfold expand_dim. replace (Z.of_N v =? -1)%Z with false by lia. replace (Z.of_N v <? 0)%Z with false by lia. rewrite N2Z.id.
      replace ((v =? d0) || (d0 =? 1)) with true by lia. reflexivity. }
    rewrite !X by auto. cbn [obind].
    match goal with |- exists _, tab _ ?f = _ /\ _ => set (F := f) end.
    assert (HF : forall n c0 k0, n < Nb -> c0 < Ch -> k0 < BP * L -> F [n; c0; k0] = Some (Z.of_N (nth (N.to_nat k0) I 0))).
    { intros n c0 k0 Hn Hc Hk. unfold F. cbn [combine map fst snd skipn]. rewrite (N.eqb_refl 1).
      destruct (N.eqb_spec (BP * L) 1) as [E1|E1]; [|apply G1; exact Hk]. replace k0 with 0 by lia. apply G1. lia. }
    destruct (tab_Some [Nb; Ch; BP * L] F) as [t Ht].
    { intros i Hi. destruct (valid3_inv _ _ _ _ Hi) as (n & c0 & k0 & -> & Hn & Hc & Hk). eexists. apply HF; assumption. }
    exists t. split; [exact Ht|]. split; [apply (tab_wf _ _ _ Ht)|]. intros n c0 k0 Hn Hc Hk. rewrite (get_tab _ _ _ _ Ht); [apply HF; assumption|apply valid3; auto]. }
  cbn [obind].
  destruct (canvas_ok add zero Nb Ch (BP * L) (prodN (padded g)) I ixe (mkT [Nb; Ch; BP * L] (tdata x))) as (y & Hy & Wy & Sy & Gy);
    [exact Sie|reflexivity| |exact Gie| |].
  { unfold twf. cbn [tshape tdata prodN]. rewrite W, Sx. cbn [prodN]. f_equal. nia. }
  { intros k0 Hk. destruct (nth_error BQ (N.to_nat k0)) as [[b q]|] eqn:E; [|apply nth_error_None in E; lia]. rewrite (HI _ _ E).
    destruct (prod_at _ _ _ _ E) as (Vb & Vq & _). apply offset_lt. apply VP; assumption. }
  rewrite Hy. cbn [obind].
  assert (ONE : forall n c0 z, n < Nb -> c0 < Ch -> valid_idx (g_image g) z ->
            get (mkT (Nb :: Ch :: padded g) (tdata y)) (n :: c0 :: add_lists z (g_begin g)) =
            option_map (fun l => fold_left add l zero) (mapo (fun bq => get x [n; c0 * BP + offset (g_block g) (fst bq); offset (counts_of g) (snd bq)]) (lying_on g z))).
  { intros n c0 z Hn Hc Vz. rewrite (tail_get y _ _ _ _ _ _ Sy).
    assert (VZ : valid_idx (padded g) (add_lists z (g_begin g))) by (apply shifted; congruence || assumption).
    rewrite Gy; [|assumption|assumption|apply offset_lt; exact VZ].
    unfold lying_on. fold BQ.
    rewrite (mapo_filter _ _ (fun bq => offset (padded g) (place bq) =? offset (padded g) (add_lists z (g_begin g)))).
    - cbn [option_map]. do 2 f_equal. rewrite <- LB. apply flat_map_upto. intros k0 bq Hk.
      destruct (prod_at _ _ _ _ Hk) as (Vb & Vq & Ek). fold L in Ek. cbv beta. rewrite Ek, LB. rewrite (flat_get x Nb Ch BP L) by exact Sx.
      replace (N.to_nat (offset (g_block g) (fst bq) * L + offset (counts_of g) (snd bq))) with k0 by lia. rewrite (HI _ _ Hk). reflexivity.
    - intros [b q] Hbq. apply in_prod_iff in Hbq. destruct Hbq as [Vb Vq]. apply indices_In in Vb, Vq. cbn [fst snd]. split.
      + destruct (get_valid x [n; c0 * BP + offset (g_block g) b; offset (counts_of g) q]) as (v & -> & _); [unfold twf; rewrite Sx; exact (eq_trans W (f_equal (fun s => N.to_nat (prodN s)) Sx))| |discriminate].
        rewrite Sx. pose proof (offset_lt _ _ Vb). pose proof (offset_lt _ _ Vq). fold BP in H. fold L in H0. apply valid3. split; [assumption|]. split; [nia|assumption].
      + pose proof (VP b q Vb Vq) as V. unfold place in V |- *. cbn [fst snd] in V |- *.
        destruct (list_eq_dec N.eq_dec _ _) as [E|E]; destruct (N.eqb_spec (offset (padded g) (place_of (g_stride g) (g_dilation g) q b)) (offset (padded g) (add_lists z (g_begin g)))) as [E'|E']; try reflexivity.
        * exfalso. apply E'. f_equal. exact E.
        * exfalso. apply E. exact (offset_inj _ _ _ V VZ E'). }
  assert (WY : twf (mkT (Nb :: Ch :: padded g) (tdata y))) by (exact (tail_wf y Nb Ch (padded g) Sy Wy)).
  assert (R : b_reshape (Nb :: Ch :: padded g) y = Some (mkT (Nb :: Ch :: padded g) (tdata y))).
  { unfold b_reshape, reshape_flat. unfold twf in WY. cbn [tshape tdata] in WY. rewrite WY, N2Nat.id, N.eqb_refl. reflexivity. }
  rewrite R. cbn [obind].
  assert (FIN : (match ranges g with None => Some (mkT (Nb :: Ch :: padded g) (tdata y)) | Some rs => Recur_Model.b_slice ((0, Nb) :: (0, Ch) :: rs) (mkT (Nb :: Ch :: padded g) (tdata y)) end)
                = tab (Nb :: Ch :: g_image g) (fun i => match i with n :: c0 :: z => get (mkT (Nb :: Ch :: padded g) (tdata y)) (n :: c0 :: add_lists z (g_begin g)) | _ => None end)).
  { unfold ranges. destruct (forallb (N.eqb 0) (g_begin g) && forallb (N.eqb 0) (g_end g)) eqn:Z0.
    - apply andb_true_iff in Z0. destruct Z0 as [Z1 Z2].
      assert (EP : padded g = g_image g) by (unfold padded; rewrite (unpadded (g_image g)) by (congruence || assumption); apply unpadded; congruence || assumption).
      rewrite <- (tab_get _ WY) at 1. cbn [tshape]. rewrite EP. apply tab_ext. intros i Hi. inversion Hi as [|n ? r ? Hn Hr]; subst. inversion Hr as [|c0 ? z ? Hc Hz]; subst.
      rewrite unpadded; [reflexivity| |exact Z1]. apply valid_len in Hz. congruence.
    - unfold Recur_Model.b_slice. cbn [tshape length combine forallb fst snd map].
      rewrite !map_length, combine_length, L5, L1, Lp, Nat.min_id, Nat.eqb_refl. replace (Nb <=? Nb) with true by lia. replace (Ch <=? Ch) with true by lia. cbn [andb].
      unfold padded at 1. rewrite range_fits by congruence. rewrite range_sizes by congruence. rewrite !N.sub_0_r. apply tab_ext. intros i Hi.
      inversion Hi as [|n ? r ? Hn Hr]; subst. inversion Hr as [|c0 ? z ? Hc Hz]; subst. cbn [combine map fst snd]. rewrite range_shift; [rewrite !N.add_0_l; reflexivity|congruence|apply valid_len in Hz; congruence]. }
  assert (TAB : tab (Nb :: Ch :: g_image g) (fun i => match i with n :: c0 :: z => get (mkT (Nb :: Ch :: padded g) (tdata y)) (n :: c0 :: add_lists z (g_begin g)) | _ => None end) = onnx_col2im add zero g Nb Ch x).
  { unfold onnx_col2im. apply tab_ext. intros i Hi. inversion Hi as [|n ? r ? Hn Hr]; subst. inversion Hr as [|c0 ? z ? Hc Hz]; subst. apply ONE; assumption. }
  split; [intros ->; cbn [negb]; rewrite <- TAB; exact FIN|]. rewrite <- TAB. destruct (tab_Some (Nb :: Ch :: g_image g) (fun i => match i with n :: c0 :: z => get (mkT (Nb :: Ch :: padded g) (tdata y)) (n :: c0 :: add_lists z (g_begin g)) | _ => None end)) as [t Ht]; [|exists t; exact Ht].
  intros i Hi. inversion Hi as [|n ? r ? Hn Hr]; subst. inversion Hr as [|c0 ? z ? Hc Hz]; subst.
  destruct (get_valid _ (n :: c0 :: add_lists z (g_begin g)) WY) as (v & -> & _); [|exists v; reflexivity]. cbn [tshape].
  constructor; [exact Hn|]. constructor; [exact Hc|]. apply shifted; congruence || assumption.
Qed.

(** ** The numbers the generator writes *)
Lemma one1 v : one_at 1 0 v = [v]. Proof. reflexivity. Qed.
Lemma one2a v : one_at 2 0 v = [v; 1]. Proof. reflexivity. Qed.
Lemma one2b v : one_at 2 1 v = [1; v]. Proof. reflexivity. Qed.
Lemma gen_ok g k : (k = 1 \/ k = 2)%nat -> geometry_ok k g ->
  exists c, gen_col2im (mkC2I (g_image g) (g_block g) (g_dilation g) (g_begin g ++ g_end g) (g_stride g)) = Some c /\
    cc_block c = prodN (g_block g) /\ cc_windows c = prodN (counts_of g) /\ cc_padded c = prodN (padded g) /\ cc_dims c = padded g /\ cc_slice c = ranges g /\
    sum_terms (cc_blocks c) = Some (mkT (g_block g) (lin (weights (g_dilation g) (padded g)) (g_block g))) /\
    sum_terms (cc_offsets c) = Some (mkT (counts_of g) (lin (weights (g_stride g) (padded g)) (counts_of g))).
Proof.
  intros K (L1 & L2 & L3 & L4 & L5 & L6 & Pk & Ps & Fx). destruct g as [im bl ss dl pb pe]. unfold counts_of, padded, ranges in *. cbn [g_image g_block g_stride g_dilation g_begin g_end] in *.
  destruct K as [-> | ->].
  - destruct im as [|i1 [|? ?]]; try discriminate. destruct bl as [|b1 [|? ?]]; try discriminate. destruct ss as [|s1 [|? ?]]; try discriminate.
    destruct dl as [|d1 [|? ?]]; try discriminate. destruct pb as [|p1 [|? ?]]; try discriminate. destruct pe as [|e1 [|? ?]]; try discriminate.
    inversion Pk; subst. inversion Ps; subst. inversion Fx; subst. unfold extent in *.
    unfold gen_col2im. cbn [ci_image ci_block ci_dilations ci_pads ci_strides length app Nat.ltb Nat.leb firstn skipn combine mapo fst snd seq nth_error obind rev andb].
    replace (b1 =? 0) with false by lia. cbn [obind nth_error]. replace ((i1 + p1 + e1 <? d1 * (b1 - 1) + 1) || (s1 =? 0)) with false by lia. cbn [obind nth_error].
    rewrite !one1. eexists. split; [reflexivity|]. cbn [cc_block cc_windows cc_padded cc_dims cc_slice cc_blocks cc_offsets add_lists block_counts weights skipn].
    replace (d1 * (b1 - 1) + 1) with ((b1 - 1) * d1 + 1) by lia. repeat split; apply terms_1.
  - destruct im as [|i1 [|i2 [|? ?]]]; try discriminate. destruct bl as [|b1 [|b2 [|? ?]]]; try discriminate. destruct ss as [|s1 [|s2 [|? ?]]]; try discriminate.
    destruct dl as [|d1 [|d2 [|? ?]]]; try discriminate. destruct pb as [|p1 [|p2 [|? ?]]]; try discriminate. destruct pe as [|e1 [|e2 [|? ?]]]; try discriminate.
    inversion Pk as [|? ? ? Pk']; subst. inversion Ps as [|? ? ? Ps']; subst. inversion Fx as [|? ? ? ? ? Fx']; subst. inversion Pk'; subst. inversion Ps'; subst. inversion Fx'; subst. unfold extent in *.
    unfold gen_col2im. cbn [ci_image ci_block ci_dilations ci_pads ci_strides length app Nat.ltb Nat.leb firstn skipn combine mapo fst snd seq nth_error obind rev andb].
    replace (b1 =? 0) with false by lia. replace (b2 =? 0) with false by lia. cbn [obind nth_error].
    replace ((i1 + p1 + e1 <? d1 * (b1 - 1) + 1) || (s1 =? 0)) with false by lia. replace ((i2 + p2 + e2 <? d2 * (b2 - 1) + 1) || (s2 =? 0)) with false by lia. cbn [obind nth_error].
    rewrite !one2a, !one2b. eexists. split; [reflexivity|]. cbn [cc_block cc_windows cc_padded cc_dims cc_slice cc_blocks cc_offsets add_lists block_counts weights skipn].
    replace (d1 * (b1 - 1) + 1) with ((b1 - 1) * d1 + 1) by lia. replace (d2 * (b2 - 1) + 1) with ((b2 - 1) * d2 + 1) by lia. repeat split; apply terms_2.
Qed.
Lemma config_ok value k n g : geometry_ok k g -> col2im_node value k n g ->
  col2im_config value n = IOk (mkC2I (g_image g) (g_block g) (g_dilation g) (g_begin g ++ g_end g) (g_stride g)).
Proof.
  intros (L1 & _) ((x & i & b & E & Vi & Vb) & As & Ad & Ap & I1 & I2 & I3 & I4 & I5 & I6). unfold col2im_config. rewrite E, Vi, Vb, map_length, L1.
  rewrite (repeat_map 1), (ints_read _ _ _ _ Ad). cbn [ibind]. replace (k * 2)%nat with (2 * k)%nat by lia. rewrite (repeat_map 0), (ints_read _ _ _ _ Ap). cbn [ibind].
  rewrite (ints_read _ _ _ _ As). cbn [ibind]. rewrite !map_to_usize; try assumption; [reflexivity|]. apply Forall_app. split; assumption.
Qed.
