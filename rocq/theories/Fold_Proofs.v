From Coq Require Import Reals Lra.
From Flocq Require Import Core BinarySingleNaN.
From Coq Require Import ZifyBool ZifyNat ZifyN Sorted.
From Verif Require Import Fold_Spec Float_Proofs Tensor_Proofs IR_Proofs AxisOps_Proofs.
Local Open Scope N_scope.

(** * Element-wise evaluation is flat evaluation *)
Lemma prod_shape_eq s : prod_shape s = prodN s.
Proof. induction s; cbn; congruence. Qed.

Lemma prodN_app a b : prodN (a ++ b) = prodN a * prodN b.
Proof. induction a as [|x a IH]; cbn [app prodN]; [lia|]. rewrite IH. lia. Qed.

Lemma offset_app p w : forall i j, length i = length p -> offset (p ++ w) (i ++ j) = offset p i * prodN w + offset w j.
Proof.
  induction p as [|d p IH]; intros [|x i] j H; cbn [length] in H; try discriminate; cbn [app offset]; [lia|].
  rewrite IH by lia. rewrite prodN_app. lia.
Qed.

Lemma bound_le x w : Forall2 (fun a b => a = b \/ a = 1) x w -> prodN w <> 0 ->
  prodN x <= prodN w /\ (prodN x = prodN w -> x = w).
Proof.
  induction 1 as [|a b x w Hab Hf IH]; intros H0; cbn [prodN] in *; [split; [lia|reflexivity]|].
  assert (Hb : b <> 0) by (intros ->; lia). assert (Hw : prodN w <> 0) by (intros E; rewrite E in H0; lia).
  destruct (IH Hw) as [IH1 IH2].
  assert (Hab' : a <= b) by (destruct Hab; lia).
  split; [apply N.mul_le_mono; assumption|]. intros E.
  assert (a = b).
  { destruct (N.eq_dec a b); [assumption|]. exfalso.
    assert (a < b) by lia.
    assert (a * prodN x <= a * prodN w) by (apply N.mul_le_mono_l; exact IH1).
    assert (a * prodN w < b * prodN w) by (apply N.mul_lt_mono_pos_r; lia). lia. }
  subst b. f_equal. apply IH2. apply (N.mul_cancel_l _ _ a); assumption.
Qed.

Lemma valid_pos s idx : valid_idx s idx -> prodN s <> 0.
Proof. intros H. pose proof (offset_lt s idx H). lia. Qed.

Lemma app_split {A} : forall (a b c d : list A), length a = length c -> a ++ b = c ++ d -> a = c /\ b = d.
Proof.
  induction a as [|x a IH]; intros b [|y c] d H E; cbn in H; try discriminate; cbn in E; [auto|].
  inversion E; subst. destruct (IH b c d) as [-> ->]; auto.
Qed.

(** An operand of as many elements as the result, or of one, is read in place. *)
Lemma flat_read {A} (x : tensor A) s idx :
  twf x -> bto (rev (tshape x)) (rev s) -> valid_idx s idx ->
  (N.of_nat (length (tdata x)) = prodN s \/ length (tdata x) = 1%nat) ->
  get x (bproj (tshape x) idx) = broadcast_get (tdata x) (N.to_nat (offset s idx)).
Proof.
  intros Hw Hb Hv Hl. pose proof (bproj_valid _ _ _ Hb Hv) as Hp. pose proof (offset_lt _ _ Hp) as Ho.
  unfold twf in Hw. unfold get, broadcast_get.
  destruct (Nat.eqb_spec (length (tdata x)) 1) as [E|E].
  { replace (N.to_nat (offset (tshape x) (bproj (tshape x) idx))) with 0%nat by lia. reflexivity. }
  destruct Hl as [Hl|Hl]; [|contradiction]. f_equal. f_equal.
  pose proof (valid_pos _ _ Hv) as H0.
  pose proof Hb as Hb'. apply bto_split in Hb'. destruct Hb' as [u [v [Hc Hf]]].
  apply (f_equal (@rev N)) in Hc. rewrite rev_involutive, rev_app_distr in Hc.
  apply Forall2_rev in Hf. rewrite rev_involutive in Hf. set (w := rev u) in *. set (p := rev v) in *.
  subst s. rewrite prodN_app in Hl, H0.
  assert (Hw0 : prodN w <> 0) by (intros K; rewrite K in H0; lia).
  destruct (bound_le _ _ Hf Hw0) as [K1 K2].
  assert (Hp0 : prodN p <> 0) by (intros K; rewrite K in H0; lia).
  assert (Hp1 : prodN p = 1) by nia. rewrite Hp1 in Hl. rewrite K2 by lia.
  assert (Hlen : length idx = (length p + length w)%nat).
  { apply Forall2_length in Hv. rewrite app_length in Hv. exact Hv. }
  rewrite <- (firstn_skipn (length p) idx) in Hv |- *.
  set (i := firstn (length p) idx) in *. set (j := skipn (length p) idx) in *.
  assert (Hi : length i = length p) by (unfold i; rewrite firstn_length; lia).
  assert (Hj : length j = length w) by (unfold j; rewrite skipn_length; lia).
  rewrite (offset_app p w i j Hi).
  apply Forall2_app_inv_l in Hv. destruct Hv as [p' [w' [V1 [V2 V3]]]].
  assert (p' = p /\ w' = w) as [-> ->].
  { pose proof (Forall2_length V1). apply app_split in V3; [|lia]. destruct V3; split; congruence. }
  assert (offset p i < 1) by (rewrite <- Hp1; apply offset_lt; exact V1).
  replace (offset p i) with 0 by lia. rewrite N.mul_0_l, N.add_0_l. f_equal.
  unfold bproj. rewrite app_length, Hi, Hj.
  replace (length p + length w - length w)%nat with (length i) by lia.
  rewrite skipn_app, skipn_all, Nat.sub_diag. cbn [app skipn].
  fold (valid_idx w j) in V2. clear - V2. unfold valid_idx in V2.
  induction V2 as [|a b j w Hab V2 IH]; cbn; [reflexivity|]. rewrite IH. f_equal.
  destruct (N.eqb_spec b 1); [subst; lia|reflexivity].
Qed.

Lemma mapev_ok {A B} (f : A -> ev B) : forall l r, mapev f l = Done r -> Forall2 (fun a b => f a = Done b) l r.
Proof.
  induction l as [|x l IH]; intros r H; cbn in H; [inversion H; constructor|].
  destruct (f x) as [| |y] eqn:E; cbn in H; try discriminate.
  destruct (mapev f l) as [| |ys] eqn:E'; cbn in H; try discriminate. inversion H; subst. constructor; [exact E|]. apply IH. reflexivity.
Qed.

Lemma apply_ok {A B} (f : A -> A -> ev B) x y r : apply_binary f x y = Done r ->
  length r = Nat.max (length x) (length y) /\
  (length x = length r \/ length x = 1%nat) /\ (length y = length r \/ length y = 1%nat) /\
  forall k c, nth_error r k = Some c -> exists a b, broadcast_get x k = Some a /\ broadcast_get y k = Some b /\ f a b = Done c.
Proof.
  unfold apply_binary. intros H.
  destruct (negb (Nat.eqb (length x) (length y)) && negb (Nat.eqb (length x) 1) && negb (Nat.eqb (length y) 1)) eqn:E; [discriminate|].
  apply mapev_ok in H. pose proof (Forall2_length H) as Hl. rewrite seq_length in Hl.
  assert (Hn : forall k c, nth_error r k = Some c -> exists a b, broadcast_get x k = Some a /\ broadcast_get y k = Some b /\ f a b = Done c).
  { intros k c Hk. assert (Hk' : (k < Nat.max (length x) (length y))%nat).
    { rewrite Hl. apply nth_error_Some. congruence. }
    assert (Hs : nth_error (seq 0 (Nat.max (length x) (length y))) k = Some k).
    { rewrite nth_error_nth' with (d := 0%nat) by (rewrite seq_length; exact Hk'). rewrite seq_nth by exact Hk'. reflexivity. }
    assert (Hf : match broadcast_get x k, broadcast_get y k with Some a, Some b => f a b | _, _ => Panic end = Done c).
    { clear - H Hk Hs. revert H Hk Hs. generalize (seq 0 (Nat.max (length x) (length y))). intros l H.
      assert (G : forall q, nth_error r q = Some c -> nth_error l q = Some k ->
                  match broadcast_get x k, broadcast_get y k with Some a, Some b => f a b | _, _ => Panic end = Done c).
      { induction H as [|a b l r Hab H IH]; intros [|q] Hk Hs; cbn in Hk, Hs; try discriminate.
        - inversion Hk; inversion Hs; subst. exact Hab.
        - eapply IH; eassumption. }
      apply G. }
    destruct (broadcast_get x k) as [a|], (broadcast_get y k) as [b|]; try discriminate. exists a, b. auto. }
  split; [lia|]. split; [|split; [|exact Hn]].
  - destruct (length r) eqn:Er; [lia|].
    destruct (nth_error r 0) as [c|] eqn:E0; [|apply nth_error_None in E0; lia].
    destruct (Hn _ _ E0) as (a & b & Ha & Hb & _). unfold broadcast_get in Ha, Hb.
    destruct (Nat.eqb_spec (length x) 1), (Nat.eqb_spec (length y) 1), (Nat.eqb_spec (length x) (length y)); cbn in E; try discriminate; try lia.
    assert (length x <> 0%nat) by (destruct x; [discriminate|cbn; lia]). lia.
  - destruct (length r) eqn:Er; [lia|].
    destruct (nth_error r 0) as [c|] eqn:E0; [|apply nth_error_None in E0; lia].
    destruct (Hn _ _ E0) as (a & b & Ha & Hb & _). unfold broadcast_get in Ha, Hb.
    destruct (Nat.eqb_spec (length x) 1), (Nat.eqb_spec (length y) 1), (Nat.eqb_spec (length x) (length y)); cbn in E; try discriminate; try lia.
    assert (length y <> 0%nat) by (destruct y; [discriminate|cbn; lia]). lia.
Qed.

(** Whatever the broadcast result is, flat evaluation of the same length found it. *)
Lemma fold_lifted {A B C D} (f : B -> B -> ev C) (g : A -> B) (h : C -> D) (op : A -> A -> D -> Prop) (x y : tensor A) (r : tensor D) l :
  (forall a b c c', f (g a) (g b) = Done c -> op a b c' -> h c = c') ->
  twf x -> twf y -> lifted op x y r -> apply_binary f (map g (tdata x)) (map g (tdata y)) = Done l ->
  N.of_nat (length l) = prodN (tshape r) -> map h l = tdata r.
Proof.
  intros Hop Hx Hy (Hr & Hs & Hel) H Hlen. destruct (apply_ok _ _ _ _ H) as (_ & Lx & Ly & Hn).
  rewrite map_length in Lx, Ly. destruct (bshape_bto _ _ _ Hs) as [Bx By].
  apply nth_error_ext. intros k. rewrite nth_error_map.
  assert (Hlr : length (tdata r) = length l) by (unfold twf in Hr; lia).
  destruct (Nat.lt_ge_cases k (length l)) as [Hk|Hk].
  2:{ transitivity (@None D); [|symmetry; apply nth_error_None; lia].
      replace (nth_error l k) with (@None C) by (symmetry; apply nth_error_None; lia). reflexivity. }
  destruct (nth_error (indices (tshape r)) k) as [idx|] eqn:Ei.
  2:{ apply nth_error_None in Ei. rewrite indices_length in Ei. lia. }
  assert (Hv : valid_idx (tshape r) idx) by (apply indices_In; eapply nth_error_In; exact Ei).
  assert (Ho : N.to_nat (offset (tshape r) idx) = k).
  { pose proof (indices_offset _ _ Hv) as Hi. pose proof (indices_NoDup (tshape r)) as Hd.
    rewrite NoDup_nth_error in Hd. apply Hd; [apply nth_error_Some; congruence|congruence]. }
  destruct (Hel _ Hv) as (a & b & c & Ga & Gb & Gc & Hc).
  rewrite (flat_read x _ _ Hx Bx Hv) in Ga by (destruct Lx; [left; lia|right; assumption]).
  rewrite (flat_read y _ _ Hy By Hv) in Gb by (destruct Ly; [left; lia|right; assumption]).
  rewrite Ho in Ga, Gb. unfold get in Gc. rewrite Ho in Gc. rewrite Gc.
  destruct (nth_error l k) as [c'|] eqn:El; [|apply nth_error_None in El; lia].
  destruct (Hn _ _ El) as (a' & b' & Ha' & Hb' & Hf).
  unfold broadcast_get in *. rewrite map_length in Ha', Hb'.
  assert (a' = g a). { destruct (Nat.eqb (length (tdata x)) 1); rewrite nth_error_map, Ga in Ha'; cbn in Ha'; congruence. }
  assert (b' = g b). { destruct (Nat.eqb (length (tdata y)) 1); rewrite nth_error_map, Gb in Hb'; cbn in Hb'; congruence. }
  subst. cbn. f_equal. eapply Hop; eassumption.
Qed.

(** * The evaluators *)
Definition zop (op : binop) : Z -> Z -> Z -> Prop :=
  match op with
  | BAdd => fun a b c => c = (a + b)%Z | BSub => fun a b c => c = (a - b)%Z | BMul => fun a b c => c = (a * b)%Z
  | BDiv => fun a b c => b <> 0%Z /\ c = Z.quot a b end.
Definition op32 (op : binop) : f32 -> f32 -> f32 := match op with BAdd => add32 | BSub => sub32 | BMul => mul32 | BDiv => div32 end.
Definition op64 (op : binop) : f64 -> f64 -> f64 := match op with BAdd => add64 | BSub => sub64 | BMul => mul64 | BDiv => div64 end.

Lemma op_i64_ok op a b c : op_i64 op a b = Done c -> zop op a b c /\ (in64 a -> in64 c).
Proof.
  unfold op_i64, checked, in64. destruct op; cbn [zop];
    try (match goal with |- context [if ?q then _ else _] => destruct q eqn:E end; intros H; inversion H; subst; split; [reflexivity|lia]).
  destruct (Z.eqb_spec b 0); [discriminate|].
  destruct ((a =? min64) && (b =? -1))%Z%bool eqn:E; [discriminate|]. intros H; inversion H; subst. split; [auto|].
  intros Ha. unfold min64, max64 in *.
  assert (Hq : (Z.abs (Z.quot a b) <= Z.abs a)%Z).
  { rewrite <- Z.quot_abs by lia. apply Z.quot_le_upper_bound; [lia|]. nia. }
  assert (Z.quot a b <> 9223372036854775808)%Z; [|lia].
  intros K. assert (a = -9223372036854775808)%Z by lia. subst a.
  destruct (Z.eq_dec b (-1)) as [->|Hb]; [discriminate E|].
  assert (Hr : (Z.abs (Z.quot (-9223372036854775808) b) <= 9223372036854775808 / 2)%Z); [|lia].
  destruct (Z.eq_dec b 1) as [->|Hb1]; [discriminate K|].
  rewrite <- Z.quot_abs by lia. change (Z.abs (-9223372036854775808)) with 9223372036854775808%Z.
  rewrite Z.quot_div_nonneg by lia. apply Z.div_le_compat_l; lia.
Qed.
Lemma zop_fun op a b c c' : zop op a b c -> zop op a b c' -> c = c'.
Proof. destruct op; cbn; intros; intuition congruence. Qed.
Lemma op_f64_ok op a b c : op_f64 op a b = Done c -> c = op64 op a b.
Proof. destruct op; cbn; [| | |destruct (is_zero b); [discriminate|]]; intros H; inversion H; reflexivity. Qed.
Lemma op_f32_ok op a b c : op_f64 op (as_f64 a) (as_f64 b) = Done c -> as_f32 c = op32 op a b.
Proof.
  destruct op; cbn.
  - intros H; inversion H. apply add_ok.
  - intros H; inversion H. apply sub_ok.
  - intros H; inversion H. apply mul_ok.
  - destruct (is_zero (as_f64 b)) eqn:E; [discriminate|]. rewrite zero_64 in E. intros H; inversion H. apply div_ok; exact E.
Qed.
Lemma as_i32_id z : in32 z -> as_i32 z = z.
Proof. unfold in32, as_i32, min32, max32. intros. rewrite Z.mod_small; lia. Qed.

Lemma wf_twf {A} (x : fdata) (l : list A) : fd_wf x -> vals_len (fd_vals x) = length l -> twf (mkT (fd_shape x) l).
Proof. unfold fd_wf, twf. cbn. intros [H _] E. lia. Qed.

Lemma fd_eq d r : fd_shape d = fd_shape r -> fd_vals d = fd_vals r -> d = r.
Proof. destruct d, r; cbn; congruence. Qed.

Lemma tensor_new_ok s v d : tensor_new s v = Done d -> d = mkFD s v /\ N.of_nat (vals_len v) = prodN s.
Proof.
  unfold tensor_new. rewrite prod_shape_eq. destruct (N.eqb_spec (N.of_nat (vals_len v)) (prodN s)) as [E|E]; [|discriminate].
  intros H; inversion H; auto.
Qed.

Ltac ev_inv H :=
  repeat match type of H with
  | ebind ?x _ = Done _ => let E := fresh "E" in destruct x eqn:E; cbn [ebind] in H; [discriminate H|discriminate H|]
  end.

Lemma try_ok {A} (x : option A) a : try x = Done a -> x = Some a.
Proof. destruct x; cbn; congruence. Qed.

Section Evaluators.
  Variable value : arg -> option fdata.

  Lemma input_value_ok n i x : input_value value n i = Done x -> exists a, nth_error (ninputs n) i = Some a /\ value a = Some x.
  Proof. unfold input_value. destruct (nth_error (ninputs n) i) as [a|]; [|discriminate]. intros H. apply try_ok in H. eauto. Qed.
  Lemma first_out_ok n ty : first_out n = Done ty -> exists o r, noutputs n = o :: r /\ ty = aty o.
  Proof. unfold first_out. destruct (noutputs n) as [|o r]; [discriminate|]. intros H; inversion H; eauto. Qed.

  Lemma emap_ok {A B} (f : A -> B) x b : emap f x = Done b -> exists a, x = Done a /\ b = f a.
  Proof. destruct x; cbn; try discriminate. intros H; inversion H; eauto. Qed.

  Lemma binary_ok n op d ty x y r :
    eval_binary value n op = Done (d, ty) ->
    input_value value n 0 = Done x -> input_value value n 1 = Done y ->
    fd_wf x -> fd_wf y -> arith (zop op) (op32 op) (op64 op) x y r -> fd_shape r = output_shape ty -> d = r.
  Proof.
    unfold eval_binary. destruct (Nat.ltb _ _); [discriminate|]. intros H Hx Hy Wx Wy Ha Hs. rewrite Hx, Hy in H. cbn [ebind] in H.
    ev_inv H. inversion H; subst. clear H E.
    apply tensor_new_ok in E1. destruct E1 as [-> Hlen]. apply fd_eq; cbn; [congruence|].
    unfold arith in Ha. unfold fd_dtype in E0.
    destruct (fd_vals x) as [a|a|a|a|] eqn:Vx; destruct (fd_vals y) as [b|b|b|b|] eqn:Vy; try contradiction;
      destruct (fd_vals r) as [c|c|c|c|] eqn:Vr; try contradiction;
      unfold to_i64_vec, to_f64_vec in E0; rewrite Vx, Vy in E0; cbn [try ebind] in E0;
      apply emap_ok in E0; destruct E0 as [l [El ->]]; cbn [vals_len] in Hlen; try rewrite map_length in Hlen;
      f_equal; rewrite <- Hs in Hlen;
      (assert (Tx : twf (mkT (fd_shape x) a)) by (apply wf_twf; [assumption|rewrite Vx; reflexivity]));
      (assert (Ty : twf (mkT (fd_shape y) b)) by (apply wf_twf; [assumption|rewrite Vy; reflexivity])).
    - rewrite <- (map_id l). change c with (tdata (mkT (fd_shape r) c)).
      eapply (fold_lifted (op_i64 op) (fun z => z) (fun z => z) _ _ _ (mkT (fd_shape r) c)); [|exact Tx|exact Ty|exact Ha|cbn; rewrite !map_id; exact El|exact Hlen].
      intros u v w w' Hw [Hw' _]. apply op_i64_ok in Hw. eapply zop_fun; [apply Hw|exact Hw'].
    - change c with (tdata (mkT (fd_shape r) c)).
      eapply (fold_lifted (op_i64 op) (fun z => z) as_i32 _ _ _ (mkT (fd_shape r) c)); [|exact Tx|exact Ty|exact Ha|cbn; rewrite !map_id; exact El|exact Hlen].
      intros u v w w' Hw [Hw' Hr]. apply op_i64_ok in Hw. assert (w = w') by (eapply zop_fun; [apply Hw|exact Hw']). subst.
      apply as_i32_id; exact Hr.
    - change c with (tdata (mkT (fd_shape r) c)).
      eapply (fold_lifted (op_f64 op) as_f64 as_f32 _ _ _ (mkT (fd_shape r) c)); [|exact Tx|exact Ty|exact Ha|exact El|exact Hlen].
      intros u v w w' Hw ->. apply op_f32_ok in Hw. exact Hw.
    - rewrite <- (map_id l). change c with (tdata (mkT (fd_shape r) c)).
      eapply (fold_lifted (op_f64 op) (fun z => z) (fun z => z) _ _ _ (mkT (fd_shape r) c)); [|exact Tx|exact Ty|exact Ha|cbn; rewrite !map_id; exact El|exact Hlen].
      intros u v w w' Hw ->. apply op_f64_ok in Hw. exact Hw.
  Qed.

  Lemma mapped_data {A B} (f : A -> B) (op : A -> B -> Prop) x r :
    mapped op x r -> (forall a b, op a b -> f a = b) -> map f (tdata x) = tdata r.
  Proof. intros [_ H] Hop. induction H; cbn; [reflexivity|]. f_equal; auto. Qed.

  Lemma neg_eval_ok n d ty x r : eval_neg value n = Done (d, ty) -> input_value value n 0 = Done x ->
    neg_of x r -> fd_shape r = output_shape ty -> d = r.
  Proof.
    unfold eval_neg. intros H Hx Hn Hs. rewrite Hx in H. cbn [ebind] in H. ev_inv H. inversion H; subst. clear H E.
    apply tensor_new_ok in E1. destruct E1 as [-> _]. apply fd_eq; cbn; [congruence|].
    unfold neg_of in Hn. unfold fd_dtype in E0.
    destruct (fd_vals x) as [a|a|a|a|] eqn:Vx; try contradiction;
      destruct (fd_vals r) as [c|c|c|c|] eqn:Vr; try contradiction;
      unfold to_i64_vec, to_f64_vec in E0; rewrite Vx in E0; cbn [try ebind] in E0; inversion E0; subst; f_equal.
    - apply (mapped_data neg_i64 _ _ _ Hn). intros u w [-> Hw]. unfold neg_i64. destruct (Z.eqb_spec u min64); [|reflexivity].
      subst. unfold in64, min64, max64 in *. lia.
    - apply (mapped_data (fun v => as_i32 (- v)) _ _ _ Hn). intros u w [-> Hw]. apply as_i32_id; exact Hw.
    - rewrite map_map. apply (mapped_data (fun v => as_f32 (neg64 (as_f64 v))) _ _ _ Hn). intros u w ->. apply neg_ok.
    - apply (mapped_data neg64 _ _ _ Hn). intros u w ->. reflexivity.
  Qed.

  Lemma sqrt_eval_ok n d ty x r : eval_sqrt value n = Done (d, ty) -> input_value value n 0 = Done x ->
    sqrt_of x r -> fd_shape r = output_shape ty -> d = r.
  Proof.
    unfold eval_sqrt. intros H Hx Hn Hs. rewrite Hx in H. cbn [ebind] in H. ev_inv H. inversion H; subst. clear H E.
    apply tensor_new_ok in E1. destruct E1 as [-> _]. apply fd_eq; cbn; [congruence|].
    unfold sqrt_of in Hn. unfold fd_dtype in E0.
    destruct (fd_vals x) as [a|a|a|a|] eqn:Vx; try contradiction;
      destruct (fd_vals r) as [c|c|c|c|] eqn:Vr; try contradiction;
      unfold to_i64_vec, to_f64_vec in E0; rewrite Vx in E0; cbn [try ebind] in E0; inversion E0; subst; f_equal.
    - rewrite map_map. apply (mapped_data (fun v => as_f32 (sqrt64 (as_f64 v))) _ _ _ Hn). intros u w ->. apply sqrt_ok.
    - apply (mapped_data sqrt64 _ _ _ Hn). intros u w ->. reflexivity.
  Qed.

  Lemma btrunc_ok {p e} {Hp : Prec_gt_0 p} {He : Prec_lt_emax p e} (x : binary_float p e) : is_finite x = true -> Btrunc x = Ztrunc (B2R x).
  Proof.
    intros _. apply eq_IZR. rewrite Btrunc_correct; [|assumption]. apply round_FIX_IZR.
  Qed.
  Lemma to_int_ok lo hi (x : f64) z : (lo <= z <= hi)%Z -> is_finite x = true -> z = Ztrunc (B2R x) -> f64_to_int lo hi x = z.
  Proof.
    intros Hr Hf Hz. assert (Hb : Btrunc x = z) by (rewrite Hz; apply btrunc_ok; exact Hf).
    unfold f64_to_int, saturate. destruct x as [s|s| |s m e H]; try discriminate; rewrite Hb; lia.
  Qed.
  Lemma whole_64 (x : f32) : is_finite x = true -> is_finite (as_f64 x) = true /\ B2R (as_f64 x) = B2R x.
  Proof. intros H. destruct (as_f64_correct x H) as (K1 & K2 & _). auto. Qed.

  Lemma cast_eval_ok n d ty x r : eval_cast value n = Done (d, ty) -> input_value value n 0 = Done x ->
    cast_of x r -> fd_wf r -> fd_shape r = output_shape ty -> fd_dtype r = target_dtype ty -> d = r.
  Proof.
    unfold eval_cast. intros H Hx Hc [_ Wr] Hs Ht. rewrite Hx in H. cbn [ebind] in H. ev_inv H. subst.
    destruct (dtype_beq (fd_dtype x) (target_dtype a)) eqn:Eb.
    { inversion H; subst. apply internal_dtype_dec_bl in Eb. destruct Hc as [[_ ->]|[K _]]; [reflexivity|]. congruence. }
    ev_inv H. inversion H; subst. clear H E.
    assert (Hne : fd_dtype r <> fd_dtype x).
    { intros K. rewrite internal_dtype_dec_lb in Eb; [discriminate|congruence]. }
    destruct Hc as [[K _]|[_ Hc]]; [contradiction|].
    apply tensor_new_ok in E1. destruct E1 as [-> _]. apply fd_eq; cbn; [congruence|].
    rewrite <- Ht in E0. unfold fd_dtype in E0, Hne.
    destruct (fd_vals x) as [u|u|u|u|d1 r1] eqn:Vx; destruct (fd_vals r) as [c|c|c|c|dt r2] eqn:Vr; cbv beta iota in E0; try discriminate E0;
      try (cbn in Hne; congruence); try (inversion E0; subst; clear E0; f_equal).
    all: try (apply (mapped_data _ _ _ _ Hc); intros v w ->; reflexivity).
    all: try (apply (mapped_data _ _ _ _ Hc); intros v w (F & Hz & R)).
    all: try (apply to_int_ok; assumption).
    all: try (apply to_int_ok; [exact R|apply whole_64; exact F|]; destruct (whole_64 v F) as [_ ->]; exact Hz).
    all: exfalso; destruct Wr as (W1 & W2 & W3 & W4); destruct dt; try discriminate H0; congruence.
  Qed.

  (** Concatenation along the first axis appends the data. *)
  Lemma row_get {A} rest idx : valid_idx rest idx -> forall (ps : list (tensor A)) i p j,
    Forall (fun p => twf p /\ exists d, tshape p = d :: rest) ps -> row ps i = Some (p, j) ->
    get p (j :: idx) = nth_error (concat (map tdata ps)) (N.to_nat (i * prodN rest + offset rest idx)).
  Proof.
    intros Hv. pose proof (offset_lt _ _ Hv) as Ho. induction ps as [|q ps IH]; intros i p j Hf H; cbn [row] in H; [discriminate|].
    inversion Hf as [|? ? [Wq [d Hd]] Hf']; subst. rewrite Hd in H. cbn [hd] in H. cbn [map concat].
    unfold twf in Wq. rewrite Hd in Wq. cbn [prodN] in Wq.
    destruct (N.ltb_spec i d) as [Hi|Hi].
    - inversion H; subst. rewrite nth_error_app1.
      + unfold get. rewrite Hd. reflexivity.
      + rewrite Wq. assert (j * prodN rest + prodN rest <= d * prodN rest) by nia. lia.
    - rewrite nth_error_app2 by (rewrite Wq; nia).
      rewrite (IH _ _ _ Hf' H). f_equal. rewrite Wq. nia.
  Qed.

  Lemma total_data {A} rest : forall (ps : list (tensor A)),
    Forall (fun p => twf p /\ exists d, tshape p = d :: rest) ps ->
    length (concat (map tdata ps)) = N.to_nat (total (map (fun p => hd 0 (tshape p)) ps) * prodN rest).
  Proof.
    induction 1 as [|q ps [Wq [d Hd]] Hf IH]; cbn [map concat]; [reflexivity|].
    rewrite app_length, IH. unfold twf in Wq. rewrite Hd in Wq |- *. cbn [prodN] in Wq. rewrite Wq.
    change (total (hd 0 (d :: rest) :: ?l)) with (d + total l). cbn. lia.
  Qed.

  Lemma stacked_data {A} (ps : list (tensor A)) r : stacked ps r -> tdata r = concat (map tdata ps).
  Proof.
    intros (rest & Hf & Wr & Hs & Hg). pose proof (total_data rest ps Hf) as Hl.
    unfold twf in Wr. rewrite Hs in Wr. cbn [prodN] in Wr.
    apply nth_error_ext. intros k. destruct (Nat.lt_ge_cases k (length (tdata r))) as [Hk|Hk].
    2:{ transitivity (@None A); [|symmetry]; apply nth_error_None; lia. }
    destruct (nth_error (indices (tshape r)) k) as [ix|] eqn:Ei.
    2:{ apply nth_error_None in Ei. rewrite indices_length, Hs in Ei. cbn [prodN] in Ei. lia. }
    assert (Hv : valid_idx (tshape r) ix) by (apply indices_In; eapply nth_error_In; exact Ei).
    assert (Ho : N.to_nat (offset (tshape r) ix) = k).
    { pose proof (indices_offset _ _ Hv) as Hi. pose proof (indices_NoDup (tshape r)) as Hd.
      rewrite NoDup_nth_error in Hd. apply Hd; [apply nth_error_Some; congruence|congruence]. }
    pose proof Hv as Hv'. rewrite Hs in Hv'. destruct ix as [|i idx]; inversion Hv'; subst.
    destruct (Hg _ _ Hv) as (p & j & Hrow & Hget). unfold get in Hget at 1. rewrite Hget.
    rewrite (row_get rest idx H4 ps i p j Hf Hrow). rewrite Hs. reflexivity.
  Qed.

  Lemma extend_ok {A} (get : fdata -> option (list A)) : forall l xs v,
    Forall2 (fun a x => value a = Some x) l xs -> extend value get l = Done v ->
    exists vs, Forall2 (fun x u => get x = Some u) xs vs /\ v = concat vs.
  Proof.
    induction l as [|a l IH]; intros xs v Hf H; inversion Hf; subst; cbn [extend] in H.
    - inversion H. exists []. split; [constructor|reflexivity].
    - rewrite H2 in H. cbn [try ebind] in H. ev_inv H. apply try_ok in E.
      destruct (IH _ _ H4 eq_refl) as (vs & Hv & ->). exists (a0 :: vs). inversion H; subst. split; [constructor; assumption|reflexivity].
  Qed.

  Lemma Forall2_map_eq {A B C} (f : A -> option B) (R : A -> C -> Prop) (g : C -> B) :
    (forall a c b, R a c -> f a = Some b -> b = g c) -> forall l bs cs,
    Forall2 (fun a b => f a = Some b) l bs -> Forall2 R l cs -> bs = map g cs.
  Proof. intros H l bs cs H1. revert cs. induction H1; intros cs H2; inversion H2; subst; cbn; [reflexivity|]. f_equal; eauto. Qed.

  Lemma concat_eval_ok n d ty xs r : eval_concat value n = Done (d, ty) ->
    Forall2 (fun a x => value a = Some x) (filter (fun a => negb (is_optional a)) (ninputs n)) xs ->
    Forall fd_wf xs -> (forall x, input_value value n 0 = Done x -> In x xs) ->
    concat0_of xs r -> fd_wf r -> fd_shape r = output_shape ty -> d = r.
  Proof.
    unfold eval_concat. intros H Hxs Hw Hin Hc [_ Wr] Hs. destruct (attr_i64_or n "axis" 0) as [axis| |]; [|discriminate|discriminate].
    destruct (negb (axis =? 0)%Z); [discriminate|].
    ev_inv H. inversion H; subst. clear H E. specialize (Hin _ eq_refl).
    apply tensor_new_ok in E2. destruct E2 as [-> _]. apply fd_eq; cbn; [congruence|].
    unfold concat0_of in Hc.
    destruct (fd_vals r) as [c|c|c|c|dt raw] eqn:Vr.
    5:{ rewrite Forall_forall in Hc. rewrite (Hc _ Hin) in E1. destruct Wr as (W1 & W2 & W3 & W4). destruct dt; try discriminate; contradiction. }
    all: destruct Hc as (ps & Hps & Hst); apply stacked_data in Hst; cbn [tdata] in Hst;
      destruct (Forall2_in_l _ _ _ _ Hps Hin) as (u & _ & [Hu _]);
      unfold fd_dtype in E1; rewrite Hu in E1; apply emap_ok in E1; destruct E1 as (l & El & ->);
      destruct (extend_ok _ _ _ _ Hxs El) as (vs & Hvs & ->); rewrite Hst; f_equal.
    - f_equal. refine (Forall2_map_eq _ _ tdata _ _ _ _ Hvs Hps). intros x p b [Hp _] Hb. unfold to_i64_vec in Hb. rewrite Hp in Hb. congruence.
    - assert (vs = map tdata ps) as ->.
      { refine (Forall2_map_eq _ _ tdata _ _ _ _ Hvs Hps). intros x p b [Hp _] Hb. unfold to_i64_vec in Hb. rewrite Hp in Hb. congruence. }
      rewrite <- (map_id (concat (map tdata ps))) at 2. apply map_ext_in. intros z Hz. apply as_i32_id.
      apply in_concat in Hz. destruct Hz as (q & Hq & Hz). apply in_map_iff in Hq. destruct Hq as (p & <- & Hp).
      assert (exists x, In x xs /\ fd_vals x = XI32 (tdata p)) as (x & Hx & Vx).
      { clear - Hps Hp. induction Hps as [|x0 p0 xs ps [Hv _] Hf IH]; [destruct Hp|]. destruct Hp as [->|Hp].
        - exists x0. split; [left; reflexivity|exact Hv].
        - destruct (IH Hp) as (x & Hx & Vx). exists x. split; [right; exact Hx|exact Vx]. }
      rewrite Forall_forall in Hw. destruct (Hw _ Hx) as [_ Wx]. rewrite Vx in Wx. rewrite Forall_forall in Wx. apply Wx; exact Hz.
    - assert (vs = map (fun p => map as_f64 (tdata p)) ps) as ->.
      { refine (Forall2_map_eq _ _ (fun p => map as_f64 (tdata p)) _ _ _ _ Hvs Hps). intros x p b [Hp _] Hb. unfold to_f64_vec in Hb. rewrite Hp in Hb. congruence. }
      clear. induction ps as [|p ps IH]; cbn [map concat]; [reflexivity|]. rewrite map_app, IH. f_equal.
      rewrite map_map. rewrite <- (map_id (tdata p)) at 2. apply map_ext. intros z. apply round_trip.
    - f_equal. refine (Forall2_map_eq _ _ tdata _ _ _ _ Hvs Hps). intros x p b [Hp _] Hb. unfold to_f64_vec in Hb. rewrite Hp in Hb. congruence.
  Qed.

  Lemma reshape_eval_ok n d ty x r : eval_reshape value n = Done (d, ty) -> input_value value n 0 = Done x ->
    reshaped x r -> exact_type ty r -> d = r.
  Proof.
    unfold eval_reshape. intros H Hx Hr Ht. rewrite Hx in H. cbn [ebind] in H. ev_inv H.
    destruct (prod_shape (fd_shape x) =? prod_shape a0); [|discriminate]. inversion H; subst. apply fd_eq; cbn; [|symmetry; exact Hr].
    destruct ty as [t|t|k|t]; cbn in Ht, E0; [destruct Ht as [_ ->]; congruence|destruct Ht as [_ ->]; congruence|destruct Ht as [_ ->]; congruence|].
    destruct Ht as [_ Ht]; rewrite Ht in E0. apply try_ok in E0.
    assert (G : forall s, all_known (map Some s) = Some s) by (induction s as [|z s IH]; cbn; [reflexivity|rewrite IH; reflexivity]).
    rewrite G in E0. congruence.
  Qed.

  (** All of them. *)
  Definition given (ins : list arg) (vs : list (option fdata)) : Prop :=
    Forall2 (fun a v => match v with None => is_optional a = true | Some x => is_optional a = false /\ value a = Some x end) ins vs.

  Lemma exact_shape ty r : exact_type ty r -> output_shape ty = fd_shape r /\ target_dtype ty = fd_dtype r.
  Proof.
    assert (G : forall s, all_known (map Some s) = Some s) by (induction s as [|z s IH]; cbn; [reflexivity|rewrite IH; reflexivity]).
    destruct ty as [t|t|k|t]; cbn; intros [-> E]; rewrite ?E; rewrite ?G; auto.
  Qed.

  Hypothesis optional_none : forall a, is_optional a = true -> value a = None.

  Lemma given_first ins vs a x more : given ins vs -> nth_error ins 0 = Some a -> value a = Some x -> present vs = x :: more \/ exists m', present vs = x :: m'.
  Proof.
    intros H Hn Hv. destruct H as [|a0 v0 ins vs H0 H]; [discriminate|]. cbn in Hn. inversion Hn; subst.
    destruct v0 as [y|]; [|rewrite (optional_none _ H0) in Hv; discriminate]. destruct H0 as [_ H0]. cbn. right. rewrite H0 in Hv. inversion Hv. eauto.
  Qed.
  Lemma given_head ins vs a x : given ins vs -> nth_error ins 0 = Some a -> value a = Some x -> exists m', present vs = x :: m'.
  Proof. intros H1 H2 H3. destruct (given_first ins vs a x [] H1 H2 H3); eauto. Qed.
  Lemma given_two ins vs a b x y : given ins vs -> nth_error ins 0 = Some a -> nth_error ins 1 = Some b ->
    value a = Some x -> value b = Some y -> exists m', present vs = x :: y :: m'.
  Proof.
    intros H Hn Hm Hv Hw. destruct H as [|a0 v0 ins vs H0 H]; [discriminate|]. cbn in Hn, Hm. inversion Hn; subst.
    destruct v0 as [z|]; [|rewrite (optional_none _ H0) in Hv; discriminate]. destruct H0 as [_ H0].
    destruct (given_head _ _ _ _ H Hm Hw) as [m' E]. exists m'. cbn. rewrite H0 in Hv. inversion Hv. f_equal. exact E.
  Qed.
  Lemma given_present ins vs : given ins vs -> Forall2 (fun a x => value a = Some x) (filter (fun a => negb (is_optional a)) ins) (present vs).
  Proof.
    induction 1 as [|a v ins vs Ha H IH]; cbn; [constructor|]. destruct v as [x|].
    - destruct Ha as [-> Ha]. cbn. constructor; assumption.
    - rewrite Ha. cbn. exact IH.
  Qed.

  Lemma evaluate_ok n d ty vs r :
    try_evaluate value n = Done (d, ty) -> given (ninputs n) vs ->
    onnx_op (ntype n) (nattrs n) (present vs) r -> exact_type ty r -> d = r.
  Proof.
    intros H Hg (Wi & Wr & Hadd & Hsub & Hmul & Hdiv & Hneg & Hsqrt & Hcast & Hcat & Hresh) Ht.
    destruct (exact_shape _ _ Ht) as [Ts Td]. symmetry in Ts, Td.
    assert (Bin : forall op, eval_binary value n op = Done (d, ty) ->
      (exists x y, present vs = [x; y] /\ arith (zop op) (op32 op) (op64 op) x y r) -> d = r).
    { intros op Hb (x & y & E & Ha). generalize Hb; intros Hb'. unfold eval_binary in Hb'. destruct (Nat.ltb _ _); [discriminate|].
      destruct (input_value value n 0) as [| |x'] eqn:E0; try discriminate. destruct (input_value value n 1) as [| |y'] eqn:E1; try discriminate.
      destruct (input_value_ok _ _ _ E0) as (a & Ha0 & Hav). destruct (input_value_ok _ _ _ E1) as (b & Hb0 & Hbv).
      destruct (given_two _ _ _ _ _ _ Hg Ha0 Hb0 Hav Hbv) as [m' Em]. rewrite E in Em. inversion Em; subst. clear Hb'.
      rewrite E in Wi. inversion Wi as [|? ? W1 W2]; subst. inversion W2 as [|? ? W3 W4]; subst.
      eapply binary_ok; eassumption. }
    assert (One : forall (P : fdata -> Prop), (exists x, present vs = [x] /\ P x) -> forall y, input_value value n 0 = Done y -> P y).
    { intros P (x & E & Hp) y Hy. destruct (input_value_ok _ _ _ Hy) as (a & Ha0 & Hav).
      destruct (given_head _ _ _ _ Hg Ha0 Hav) as [m' Em]. rewrite E in Em. inversion Em; subst. exact Hp. }
    unfold try_evaluate in H.
    destruct (String.eqb_spec (ntype n) "Add") as [E|_]; [exact (Bin BAdd H (Hadd E))|].
    destruct (String.eqb_spec (ntype n) "Sub") as [E|_]; [exact (Bin BSub H (Hsub E))|].
    destruct (String.eqb_spec (ntype n) "Mul") as [E|_]; [exact (Bin BMul H (Hmul E))|].
    destruct (String.eqb_spec (ntype n) "Div") as [E|_]; [exact (Bin BDiv H (Hdiv E))|].
    destruct (String.eqb_spec (ntype n) "Neg") as [E|_].
    { destruct (input_value value n 0) as [| |x] eqn:Ex; [unfold eval_neg in H; rewrite Ex in H; discriminate|unfold eval_neg in H; rewrite Ex in H; discriminate|].
      eapply neg_eval_ok; [exact H|exact Ex|exact (One (fun x => neg_of x r) (Hneg E) x eq_refl)|exact Ts]. }
    destruct (String.eqb_spec (ntype n) "Sqrt") as [E|_].
    { destruct (input_value value n 0) as [| |x] eqn:Ex; [unfold eval_sqrt in H; rewrite Ex in H; discriminate|unfold eval_sqrt in H; rewrite Ex in H; discriminate|].
      eapply sqrt_eval_ok; [exact H|exact Ex|exact (One (fun x => sqrt_of x r) (Hsqrt E) x eq_refl)|exact Ts]. }
    destruct (String.eqb_spec (ntype n) "Cast") as [E|_].
    { destruct (input_value value n 0) as [| |x] eqn:Ex; [unfold eval_cast in H; rewrite Ex in H; discriminate|unfold eval_cast in H; rewrite Ex in H; discriminate|].
      eapply cast_eval_ok; [exact H|exact Ex|exact (One (fun x => cast_of x r) (Hcast E) x eq_refl)|exact Wr|exact Ts|exact Td]. }
    destruct (String.eqb_spec (ntype n) "Concat") as [E|_].
    { eapply concat_eval_ok; [exact H|apply given_present; exact Hg|exact Wi| |apply Hcat; [exact E|]|exact Wr|exact Ts].
      - intros x Hx. destruct (input_value_ok _ _ _ Hx) as (a & Ha0 & Hav).
        destruct (given_head _ _ _ _ Hg Ha0 Hav) as [m' ->]. left; reflexivity.
      - unfold eval_concat, attr_i64_or, get_attr in H. destruct (sget (nattrs n) "axis") as [at_|]; [|left; reflexivity].
        right. destruct at_; try discriminate. cbn in H. destruct (Z.eqb_spec z 0); [subst; reflexivity|discriminate]. }
    destruct (String.eqb_spec (ntype n) "Unsqueeze") as [E|N1]; [|destruct (String.eqb_spec (ntype n) "Squeeze") as [E|N2]; [|destruct (String.eqb_spec (ntype n) "Reshape") as [E|N3]; [|discriminate]]].
    all: destruct (input_value value n 0) as [| |x] eqn:Ex;
      [cbn in H; unfold eval_reshape in H; rewrite Ex in H; discriminate|cbn in H; unfold eval_reshape in H; rewrite Ex in H; discriminate|];
      destruct (input_value_ok _ _ _ Ex) as (a & Ha0 & Hav); destruct (given_head _ _ _ _ Hg Ha0 Hav) as [m' Em];
      (destruct (Hresh ltac:(tauto)) as (x' & more & Ep & Hr)); rewrite Em in Ep; inversion Ep; subst;
      eapply reshape_eval_ok; [exact H|exact Ex|exact Hr|exact Ht].
  Qed.
End Evaluators.

(** * Replacing nodes by constants *)
Section Replace.
  Variable P : store -> rnode -> fdata -> argty -> Prop.

  Inductive repl : store -> list rnode -> store -> list rnode -> list string -> Prop :=
  | repl_nil s : repl s [] s [] []
  | repl_keep s n r s' r' names : repl s r s' r' names -> repl s (n :: r) s' (n :: r') names
  | repl_const s n r o os d ty s' r' names :
      noutputs n = o :: os -> ntype n <> "Constant"%string -> P s n d ty ->
      repl (fst (register_constant s (aname o) d)) r s' r' names ->
      repl s (n :: r) s' (make_constant_node (nname n) (aname o) ty (st_next s) :: r') (aname o :: names).

  Definition extends (s s' : store) : Prop := forall id d, st_get s id = Some d -> st_get s' id = Some d.

  Lemma register_get s x d id : st_get (fst (register_constant s x d)) id = if st_next s =? id then Some d else st_get s id.
  Proof. unfold st_get, register_constant. cbn. reflexivity. Qed.
  Lemma register_ok s x d : store_ok s -> store_ok (fst (register_constant s x d)).
  Proof.
    intros [H1 H2]. split.
    - intros id d' Hg. rewrite register_get in Hg. cbn. destruct (N.eqb_spec (st_next s) id); [subst; lia|].
      specialize (H1 _ _ Hg). lia.
    - intros y id Hg. cbn [register_constant fst st_const st_next] in *. rewrite sget_sput in Hg.
      destruct (String.eqb x y); [inversion Hg; lia|]. specialize (H2 _ _ Hg). lia.
  Qed.
  Lemma register_extends s x d : store_ok s -> extends s (fst (register_constant s x d)).
  Proof.
    intros [H _] id d' Hg. rewrite register_get. destruct (N.eqb_spec (st_next s) id); [|exact Hg].
    subst. specialize (H _ _ Hg). lia.
  Qed.
  Lemma repl_store s nodes s' nodes' names : repl s nodes s' nodes' names -> store_ok s -> store_ok s' /\ extends s s'.
  Proof.
    induction 1 as [s|s n r s' r' names H IH|s n r o os d ty s' r' names Ho Hc HP H IH]; intros Hs.
    - split; [exact Hs|]. intros id d Hd; exact Hd.
    - apply IH; exact Hs.
    - destruct (IH (register_ok _ _ _ Hs)) as [K1 K2]. split; [exact K1|].
      intros id d' Hd. apply K2. apply register_extends; assumption.
  Qed.

  Section Run.
    Variable sem : string -> list (string * attr) -> nat -> list (option fdata) -> option (list fdata).
    Variable s0 : store.
    Variable nodes0 : list rnode.
    Variables e0 ef : string -> option fdata.
    Hypothesis Hconst : constants_mean sem.
    Hypothesis Hssa : ssa e0 nodes0.
    Hypothesis Hrun : run sem (st_get s0) e0 nodes0 = Some ef.
    Hypothesis Hs0 : store_ok s0.
    Hypothesis Hlink : linked s0 nodes0.

    (** What the store knows about a name is what the name is bound to. *)
    Definition knows (s : store) : Prop :=
      extends s0 s /\ store_ok s /\
      forall n a id d, In n nodes0 -> In a (ninputs n) -> asrc a = VConstant ->
        sget (st_const s) (aname a) = Some id -> st_get s id = Some d -> forall v, ef (aname a) = Some v -> v = d.

    Lemma knows_start : knows s0.
    Proof.
      split; [intros id d H; exact H|]. split; [exact Hs0|].
      intros n a id d Hn Ha Hc Hid Hd v Hv. destruct (Hlink _ _ _ Hn Ha Hc Hid) as (m & i & o & Hm & Tm & Im & Si & Om & No).
      pose proof (run_holds sem (st_get s0) _ _ _ Hssa Hrun) as Hh. rewrite Forall_forall in Hh.
      destruct (Hh _ Hm) as (vs & outs & H1 & H2 & H3). rewrite Im in H1. cbn in H1. unfold arg_eval in H1. rewrite Si, Hd in H1. cbn in H1.
      inversion H1; subst vs. rewrite Tm, Om in H2. cbn [length] in H2. rewrite Hconst in H2. inversion H2; subst outs.
      unfold out_names in H3. rewrite Om in H3. inversion H3; subst. rewrite No in *. congruence.
    Qed.

    (** Values found in the store are the values of the run. *)
    Lemma value_arg s n a d v : knows s -> In n nodes0 -> In a (ninputs n) -> st_value s a = Some d ->
      arg_eval (st_get s0) ef a = Some v -> v = Some d.
    Proof.
      intros (Kx & Ks & Kn) Hn Ha Hd Hv. unfold st_value in Hd. unfold arg_eval in Hv. destruct (asrc a) as [id| | |] eqn:Es; try discriminate.
      - destruct (st_get s0 id) as [w|] eqn:Ew; cbn in Hv; [|discriminate]. apply Kx in Ew. congruence.
      - destruct (sget (st_const s) (aname a)) as [id|] eqn:Ei; [|discriminate].
        destruct (ef (aname a)) as [w|] eqn:Ew; cbn in Hv; [|discriminate]. inversion Hv; subst.
        rewrite (Kn n a id d Hn Ha Es Ei Hd w Ew). reflexivity.
    Qed.

    (** The condition under which a replacement is right. *)
    Hypothesis Hright : forall s n d ty, knows s -> In n nodes0 -> P s n d ty ->
      exists o, noutputs n = [o] /\ forall r, ef (aname o) = Some r -> d = r.

    Lemma args_extend e s' l vs : extends s0 s' -> args_eval (st_get s0) e l = Some vs -> args_eval (st_get s') e l = Some vs.
    Proof.
      intros Hx. revert vs. induction l as [|a l IH]; intros vs H; cbn in *; [exact H|].
      destruct (arg_eval (st_get s0) e a) as [v|] eqn:Ea; [|discriminate].
      destruct (args_eval (st_get s0) e l) as [ws|] eqn:El; [|discriminate]. rewrite (IH _ eq_refl).
      assert (K : arg_eval (st_get s') e a = Some v).
      { unfold arg_eval in *. destruct (asrc a) as [id| | |]; try exact Ea.
        destruct (st_get s0 id) as [w|] eqn:Ew; cbn in Ea; [|discriminate]. rewrite (Hx _ _ Ew). exact Ea. }
      rewrite K. exact H.
    Qed.

    Lemma repl_run s nodes s' nodes' names : repl s nodes s' nodes' names ->
      forall e, (forall n, In n nodes -> In n nodes0) -> knows s -> ssa e nodes -> run sem (st_get s0) e nodes = Some ef ->
        knows s' /\ forall s'', extends s' s'' -> run sem (st_get s'') e nodes' = Some ef.
    Proof.
      induction 1 as [s|s n r s' r' names H IH|s n r o os d ty s' r' names Ho Hc HP H IH]; intros e Hin Hk Hsa Hr.
      - split; [exact Hk|]. intros s'' _. exact Hr.
      - cbn [run] in Hr. destruct (node_eval sem (st_get s0) e n) as [e1|] eqn:En; [|discriminate].
        destruct (ssa_cons _ _ _ _ _ _ Hsa En) as (_ & _ & Hsa').
        destruct (IH e1) as [Hk' Hr']; [intros m Hm; apply Hin; right; exact Hm|exact Hk|exact Hsa'|exact Hr|].
        split; [exact Hk'|]. intros s'' Hx. cbn [run].
        assert (K : node_eval sem (st_get s'') e n = Some e1); [|rewrite K; apply Hr'; exact Hx].
        unfold node_eval in *. destruct (args_eval (st_get s0) e (ninputs n)) as [vs|] eqn:Ea; [|discriminate].
        rewrite (args_extend _ _ _ _ ltac:(intros id dd Hd; apply Hx; apply Hk'; exact Hd) Ea). exact En.
      - cbn [run] in Hr. destruct (node_eval sem (st_get s0) e n) as [e1|] eqn:En; [|discriminate].
        destruct (ssa_cons _ _ _ _ _ _ Hsa En) as (_ & Hfree & Hsa').
        assert (Hn0 : In n nodes0) by (apply Hin; left; reflexivity).
        destruct (Hright _ _ _ _ Hk Hn0 HP) as (o' & Ho' & Hval). rewrite Ho in Ho'. inversion Ho'; subst o' os. clear Ho'.
        unfold node_eval in En. destruct (args_eval (st_get s0) e (ninputs n)) as [vs|] eqn:Ea; [|discriminate].
        destruct (sem _ _ _ vs) as [outs|] eqn:Es; [|discriminate]. rewrite Ho in En. cbn in En.
        destruct outs as [|v [|]]; try discriminate. inversion En; subst e1. clear En.
        assert (Hv : ef (aname o) = Some v).
        { eapply run_mono; [|exact Hr|]; [exact (proj2 Hsa')|]. unfold bind1. rewrite String.eqb_refl. reflexivity. }
        pose proof (Hval _ Hv) as E. subst v.
        assert (Hk1 : knows (fst (register_constant s (aname o) d))).
        { destruct Hk as (Kx & Ks & Kn). split; [intros id dd Hd; apply register_extends; [exact Ks|apply Kx; exact Hd]|].
          split; [apply register_ok; exact Ks|]. intros m a id dd Hm Ha Hca Hid Hd v Hva. cbn [register_constant fst st_const] in Hid.
          rewrite sget_sput in Hid. destruct (String.eqb_spec (aname o) (aname a)) as [Eo|Eo].
          - inversion Hid; subst id. rewrite register_get, N.eqb_refl in Hd. rewrite <- Eo in Hva. congruence.
          - rewrite register_get in Hd. destruct (N.eqb_spec (st_next s) id) as [Eq|Hne].
            + exfalso. pose proof (proj2 Ks _ _ Hid). lia.
            + exact (Kn _ _ _ _ Hm Ha Hca Hid Hd v Hva). }
        destruct (IH (bind1 e (aname o) d)) as [Hk' Hr']; [intros m Hm; apply Hin; right; exact Hm|exact Hk1|exact Hsa'|exact Hr|].
        split; [exact Hk'|]. intros s'' Hx. cbn [run].
        assert (K : node_eval sem (st_get s'') e (make_constant_node (nname n) (aname o) ty (st_next s)) = Some (bind1 e (aname o) d)).
        { unfold node_eval, make_constant_node. cbn. unfold arg_eval. cbn.
          assert (G : st_get s'' (st_next s) = Some d).
          { apply Hx. destruct (repl_store _ _ _ _ _ H (proj1 (proj2 Hk1))) as [_ G]. apply G. rewrite register_get, N.eqb_refl. reflexivity. }
          cbn in G. rewrite G. cbn. rewrite Hconst. reflexivity. }
        rewrite K. apply Hr'. exact Hx.
    Qed.
  End Run.
End Replace.

(** References to the new constants. *)
Lemma to_constant_nil a : to_constant [] a = a.
Proof. unfold to_constant. destruct (asrc a); reflexivity. Qed.
Lemma map_to_constant_nil l : map (to_constant []) l = l.
Proof. rewrite <- (map_id l) at 2. apply map_ext. apply to_constant_nil. Qed.
Lemma update_nil nodes : update_constant_references [] nodes = nodes.
Proof.
  unfold update_constant_references. rewrite <- (map_id nodes) at 2. apply map_ext. intros [t nm i o at_]. cbn.
  rewrite map_to_constant_nil. reflexivity.
Qed.
Lemma to_constant_eval static (e : string -> option fdata) names a : arg_eval static e (to_constant names a) = arg_eval static e a.
Proof. unfold to_constant, arg_eval. destruct (asrc a) eqn:E; rewrite ?E; try reflexivity. destruct (mem_str (aname a) names); cbn; rewrite ?E; reflexivity. Qed.
Lemma update_run sem static names : forall nodes (e : string -> option fdata),
  run sem static e (update_constant_references names nodes) = run sem static e nodes.
Proof.
  induction nodes as [|n r IH]; intros e; [reflexivity|]. cbn [update_constant_references map run]. fold (update_constant_references names r).
  assert (K : forall l, args_eval static e (map (to_constant names) l) = args_eval static e l).
  { induction l as [|a l IHl]; cbn; [reflexivity|]. rewrite to_constant_eval, IHl. reflexivity. }
  assert (Hn : node_eval sem static e (mkNode (ntype n) (nname n) (map (to_constant names) (ninputs n)) (noutputs n) (nattrs n)) = node_eval sem static e n).
  { unfold node_eval. cbn. rewrite K. reflexivity. }
  rewrite Hn. destruct (node_eval sem static e n); [apply IH|reflexivity].
Qed.

Section Links.
  Variable P : store -> rnode -> fdata -> argty -> Prop.
  Lemma repl_nodes s nodes s' nodes' names : repl P s nodes s' nodes' names -> forall m, In m nodes' ->
    In m nodes \/ exists nm x ty id, m = make_constant_node nm x ty id.
  Proof.
    induction 1 as [s|s n r s' r' names H IH|s n r o os d ty s' r' names Ho Hc HP H IH]; intros m Hm; [destruct Hm| |];
      destruct Hm as [<-|Hm].
    - left; left; reflexivity.
    - destruct (IH _ Hm) as [K|K]; [left; right; exact K|right; exact K].
    - right. eauto.
    - destruct (IH _ Hm) as [K|K]; [left; right; exact K|right; exact K].
  Qed.
  Lemma repl_const_map s nodes s' nodes' names : repl P s nodes s' nodes' names -> forall x id, sget (st_const s') x = Some id ->
    (In x names /\ exists nm ty, In (make_constant_node nm x ty id) nodes') \/ (~ In x names /\ sget (st_const s) x = Some id).
  Proof.
    induction 1 as [s|s n r s' r' names H IH|s n r o os d ty s' r' names Ho Hc HP H IH]; intros x id Hx.
    - right. split; [intros []|exact Hx].
    - destruct (IH _ _ Hx) as [(K1 & nm & ty & K2)|K]; [left|right; exact K]. split; [exact K1|]. exists nm, ty. right; exact K2.
    - destruct (IH _ _ Hx) as [(K1 & nm & ty' & K2)|(K1 & K2)].
      + left. split; [right; exact K1|]. exists nm, ty'. right; exact K2.
      + cbn [register_constant fst st_const] in K2. rewrite sget_sput in K2. destruct (String.eqb_spec (aname o) x) as [<-|Hne].
        * inversion K2; subst. left. split; [left; reflexivity|]. exists (nname n), ty. left; reflexivity.
        * right. split; [|exact K2]. intros [|]; contradiction.
  Qed.
  Lemma repl_keeps_constants s nodes s' nodes' names : repl P s nodes s' nodes' names -> forall m, In m nodes -> ntype m = "Constant"%string -> In m nodes'.
  Proof.
    induction 1 as [s|s n r s' r' names H IH|s n r o os d ty s' r' names Ho Hc HP H IH]; intros m Hm Ht; [destruct Hm| |];
      destruct Hm as [<-|Hm].
    - left; reflexivity.
    - right. apply IH; assumption.
    - contradiction.
    - right. apply IH; assumption.
  Qed.

  Lemma repl_linked0 s nodes s' nodes' names : repl P s nodes s' nodes' names -> linked s nodes -> linked s' nodes'.
  Proof.
    intros H Hl m a id Hm Ha Hc Hid.
    destruct (repl_const_map _ _ _ _ _ H _ _ Hid) as [(_ & nm & ty & Hin)|(Hnot & Hid0)].
    - eexists; eexists; eexists. split; [exact Hin|]. repeat split; reflexivity.
    - destruct (repl_nodes _ _ _ _ _ H _ Hm) as [Hm0|(nm & x & ty & id' & ->)].
      + destruct (Hl _ _ _ Hm0 Ha Hc Hid0) as (c & i & o & Hcn & Tc & Ic & Si & Oc & No).
        exists c, i, o. split; [eapply repl_keeps_constants; eassumption|auto].
      + cbn in Ha. destruct Ha as [<-|[]]. discriminate.
  Qed.
End Links.

Lemma update_linked s nodes names : linked s nodes ->
  (forall x id, In x names -> sget (st_const s) x = Some id -> exists nm ty, In (make_constant_node nm x ty id) nodes) ->
  linked s (update_constant_references names nodes).
Proof.
  intros Hl Hnew n a id Hn Ha Hc Hid. unfold update_constant_references in Hn. apply in_map_iff in Hn. destruct Hn as (m & <- & Hm). cbn in Ha.
  apply in_map_iff in Ha. destruct Ha as (a0 & Ea & Ha0).
  assert (Na : aname a = aname a0). { rewrite <- Ea. unfold to_constant. destruct (asrc a0); try reflexivity. destruct (mem_str _ _); reflexivity. }
  assert (Hup : forall c i o, In c nodes -> ntype c = "Constant"%string -> ninputs c = [i] -> asrc i = VStatic id -> noutputs c = [o] -> aname o = aname a ->
    exists m i o, In m (update_constant_references names nodes) /\ ntype m = "Constant"%string /\ ninputs m = [i] /\ asrc i = VStatic id /\ noutputs m = [o] /\ aname o = aname a).
  { intros c i o Hcn Tc Ic Si Oc No. eexists. exists i, o. split; [apply in_map; exact Hcn|]. cbn. rewrite Ic. cbn.
    unfold to_constant. rewrite Si. auto 10. }
  destruct (in_dec string_dec (aname a) names) as [Hin|Hnot].
  - destruct (Hnew _ _ Hin Hid) as (nm & ty & Hc'). eapply Hup; [exact Hc'|reflexivity|reflexivity|reflexivity|reflexivity|reflexivity].
  - assert (Hc0 : asrc a0 = VConstant).
    { unfold to_constant in Ea. destruct (asrc a0) eqn:E0; try (rewrite <- Ea in Hc; congruence).
      destruct (mem_str (aname a0) names) eqn:Em; [|rewrite <- Ea in Hc; congruence].
      apply mem_str_In in Em. rewrite Na in Hnot. contradiction. }
    rewrite Na in Hid. destruct (Hl _ _ _ Hm Ha0 Hc0 Hid) as (c & i & o & Hcn & Tc & Ic & Si & Oc & No).
    eapply Hup; [exact Hcn|exact Tc|exact Ic|exact Si|exact Oc|congruence].
Qed.

Lemma repl_linked P s nodes s' nodes' names : repl P s nodes s' nodes' names -> linked s nodes ->
  linked s' (update_constant_references names nodes').
Proof.
  intros H Hl. apply update_linked; [eapply repl_linked0; eassumption|]. intros x id Hin Hid.
  destruct (repl_const_map _ _ _ _ _ _ H _ _ Hid) as [(_ & K)|(K & _)]; [exact K|contradiction].
Qed.

(** * Constant folding *)
Definition fold_step (s : store) (n : rnode) (d : fdata) (ty : argty) : Prop :=
  all_const (st_value s) n = true /\ try_evaluate (st_value s) n = Done (d, ty).

Lemma fold_nodes_repl : forall nodes s s' nodes' names, fold_nodes s nodes = Done (s', nodes', names) -> repl fold_step s nodes s' nodes' names.
Proof.
  induction nodes as [|n r IH]; intros s s' nodes' names H; cbn [fold_nodes] in H; [inversion H; constructor|].
  assert (Keep : ebind (fold_nodes s r) (fun p => let '(s1, r', outs) := p in Done (s1, n :: r', outs)) = Done (s', nodes', names) ->
    repl fold_step s (n :: r) s' nodes' names).
  { intros K. destruct (fold_nodes s r) as [| |[[s1 r'] outs]] eqn:E; cbn in K; try discriminate. inversion K; subst. apply repl_keep. apply IH. exact E. }
  destruct (String.eqb_spec (ntype n) "Constant"); [apply Keep; exact H|].
  destruct (all_const (st_value s) n) eqn:Ea; cbn [negb] in H; [|apply Keep; exact H].
  destruct (try_evaluate (st_value s) n) as [| |[d ty]] eqn:Et; [apply Keep; exact H|discriminate|].
  destruct (noutputs n) as [|o os] eqn:Eo; [discriminate|]. cbn [register_constant] in H.
  match type of H with ebind (fold_nodes ?s1 r) _ = _ => destruct (fold_nodes s1 r) as [| |[[s2 r'] outs]] eqn:E end; cbn in H; try discriminate.
  inversion H; subst. eapply repl_const; [exact Eo|exact n0|split; [exact Ea|exact Et]|]. apply IH. exact E.
Qed.

Lemma fold_constants_repl s nodes outputs s' nodes' outputs' : fold_constants s nodes outputs = Done (s', nodes', outputs') ->
  exists mid names, repl fold_step s nodes s' mid names /\ nodes' = update_constant_references names mid /\ outputs' = map (to_constant names) outputs.
Proof.
  unfold fold_constants. intros H. destruct (fold_nodes s nodes) as [| |[[s1 mid] names]] eqn:E; cbn in H; try discriminate.
  apply fold_nodes_repl in E. exists mid, names. destruct names as [|x names]; inversion H; subst.
  - split; [exact E|]. rewrite update_nil, map_to_constant_nil. auto.
  - auto.
Qed.

Lemma evaluate_ops value n d ty : try_evaluate value n = Done (d, ty) -> In (ntype n) folded_ops.
Proof.
  unfold try_evaluate.
  repeat match goal with |- context [String.eqb (ntype n) ?x] => destruct (String.eqb_spec (ntype n) x) as [->|]; [intros _; apply mem_str_In; reflexivity|] end.
  discriminate.
Qed.

Lemma evaluate_ty value n d ty : try_evaluate value n = Done (d, ty) -> first_out n = Done ty.
Proof.
  unfold try_evaluate.
  repeat match goal with |- context [if String.eqb ?x ?y then _ else _] => destruct (String.eqb x y) end.
  all: try (match goal with |- (if ?c then _ else _) = _ -> _ => destruct c end; [|discriminate]).
  all: unfold eval_binary, eval_neg, eval_sqrt, eval_cast, eval_concat, eval_reshape; try destruct (Nat.ltb _ _); try discriminate;
    try (destruct (attr_i64_or n "axis" 0); try discriminate; destruct (negb _); try discriminate); intros H; ev_inv H.
  all: try (match goal with H : (if ?c then _ else _) = Done _ |- _ => destruct c end); try discriminate; ev_inv H; congruence.
Qed.

Lemma optional_value s a : is_optional a = true -> st_value s a = None.
Proof. unfold is_optional, st_value. destruct (asrc a); congruence. Qed.

Lemma all_const_settled nodes s n : all_const (st_value s) n = true -> settled_inputs nodes n.
Proof.
  unfold all_const. intros H i Hi Hd. apply andb_true_iff in H. destruct H as [H _]. rewrite forallb_forall in H.
  specialize (H _ Hi). unfold is_optional, st_value in H. rewrite Hd in H. discriminate.
Qed.

Lemma known_given sem s0 nodes e0 ef s n vs :
  constants_mean sem -> ssa e0 nodes -> run sem (st_get s0) e0 nodes = Some ef -> store_ok s0 -> linked s0 nodes ->
  knows s0 nodes ef s -> In n nodes -> all_const (st_value s) n = true -> args_eval (st_get s0) ef (ninputs n) = Some vs ->
  given (st_value s) (ninputs n) vs.
Proof.
  intros Hc Hssa Hr Hs Hl Hk Hn Ha He. unfold all_const in Ha. apply andb_true_iff in Ha. destruct Ha as [Ha _].
  assert (G : forall l ws, (forall a, In a l -> In a (ninputs n)) -> forallb (fun a => is_optional a || match st_value s a with Some _ => true | None => false end) l = true ->
    args_eval (st_get s0) ef l = Some ws -> given (st_value s) l ws).
  { induction l as [|a l IH]; intros ws Hin Hf Hw; cbn in Hw; [inversion Hw; constructor|].
    cbn in Hf. apply andb_true_iff in Hf. destruct Hf as [Hfa Hf].
    destruct (arg_eval (st_get s0) ef a) as [v|] eqn:Ea; [|discriminate]. destruct (args_eval (st_get s0) ef l) as [ws'|] eqn:Ew; [|discriminate].
    inversion Hw; subst. constructor; [|apply IH; [intros; apply Hin; right; assumption|exact Hf|reflexivity]].
    destruct (is_optional a) eqn:Eo.
    - unfold is_optional in Eo. unfold arg_eval in Ea. destruct (asrc a); try discriminate. inversion Ea; subst. reflexivity.
    - cbn in Hfa. destruct (st_value s a) as [d|] eqn:Ed; [|discriminate].
      assert (v = Some d) as ->; [|split; [reflexivity|exact eq_refl]].
      eapply value_arg; [exact Hk|exact Hn|apply Hin; left; reflexivity|exact Ed|exact Ea]. }
  apply (G _ _ (fun a H => H) Ha He).
Qed.

Lemma fold_run sem s nodes outputs s' nodes' outputs' e0 ef :
  constants_mean sem -> folded_mean sem -> ssa e0 nodes -> store_ok s -> linked s nodes ->
  run sem (st_get s) e0 nodes = Some ef -> single_outputs folded_ops nodes -> exactly_typed folded_ops nodes ef ->
  fold_constants s nodes outputs = Done (s', nodes', outputs') ->
  run sem (st_get s') e0 nodes' = Some ef /\ store_ok s' /\ linked s' nodes' /\ map aname outputs' = map aname outputs.
Proof.
  intros Hc Hm Hssa Hs Hl Hr H1o Ht H. destruct (fold_constants_repl _ _ _ _ _ _ H) as (mid & names & Hrep & -> & ->).
  rewrite update_run.
  assert (Hright : forall s1 n d ty, knows s nodes ef s1 -> In n nodes -> fold_step s1 n d ty ->
      exists o, noutputs n = [o] /\ forall r, ef (aname o) = Some r -> d = r).
  { intros s1 n d ty Hk Hn [Ha Hev]. pose proof (evaluate_ops _ _ _ _ Hev) as Hop.
    destruct (H1o _ Hn Hop) as (o & Ho). exists o. split; [exact Ho|]. intros r Hv.
    pose proof (Ht _ _ _ Hn Hop (all_const_settled nodes _ _ Ha) Ho Hv) as Hty.
    pose proof (run_holds sem (st_get s) _ _ _ Hssa Hr) as Hh. rewrite Forall_forall in Hh.
    destruct (Hh _ Hn) as (vs & outs & H1 & H2 & H3). rewrite Ho in H2. cbn [length] in H2.
    destruct (Hm _ _ _ _ Hop H2) as (r' & -> & Honnx). unfold out_names in H3. rewrite Ho in H3. inversion H3; subst.
    assert (r' = r) by congruence. subst r'.
    assert (Ety : ty = aty o). { apply evaluate_ty in Hev. unfold first_out in Hev. rewrite Ho in Hev. congruence. }
    eapply evaluate_ok; [apply optional_value|exact Hev|eapply known_given; eassumption|exact Honnx|rewrite Ety; exact Hty]. }
  destruct (repl_run fold_step sem s nodes ef Hc Hright s nodes s' mid names Hrep e0) as [Hk' Hr']; auto.
  { apply (knows_start sem s nodes e0 ef); assumption. }
  split; [apply Hr'; intros id d Hd; exact Hd|]. split; [apply Hk'|].
  split; [eapply repl_linked; eassumption|].
  rewrite map_map. apply map_ext. intros a. unfold to_constant. destruct (asrc a); try reflexivity. destruct (mem_str _ _); reflexivity.
Qed.

(** * Shape constants *)
Local Open Scope Z_scope.

Lemma shape_value_eq s start stop : let a := clamp 0 (Z.of_nat (length s)) (from_end (Z.of_nat (length s)) start) in
  let b := clamp 0 (Z.of_nat (length s)) (from_end (Z.of_nat (length s)) stop) in
  shape_value s start stop = firstn (Z.to_nat (b - a)) (skipn (Z.to_nat a) s).
Proof. reflexivity. Qed.

Lemma int_attr_ok n k d z : int_attr_or n k d = Done z -> attr_int (nattrs n) k d = z.
Proof.
  unfold int_attr_or, attr_i64_or, get_attr, attr_int, attr_i64. destruct (sget (nattrs n) k) as [a|]; [destruct a|]; cbn; congruence.
Qed.

Lemma nth_error_firstn {A} : forall n (l : list A) k, (k < n)%nat -> nth_error (firstn n l) k = nth_error l k.
Proof. induction n as [|n IH]; intros [|x l] [|k] H; cbn; try reflexivity; try lia. apply IH. lia. Qed.
Lemma nth_error_skipn {A} : forall n (l : list A) k, nth_error (skipn n l) k = nth_error l (n + k).
Proof. induction n as [|n IH]; intros [|x l] k; cbn; try reflexivity; [destruct k; reflexivity|]. apply IH. Qed.

Lemma shape_producer_ok nodes x m s : shape_producer nodes x = Done (m, s) ->
  In m nodes /\ In x (map aname (noutputs m)) /\ ntype m = "Shape"%string /\ exists i more, ninputs m = i :: more /\ ty_shape_known (aty i) = Some s.
Proof.
  unfold shape_producer. destruct (producer_of nodes x) as [m'|] eqn:E; [|discriminate].
  destruct (String.eqb_spec (ntype m') "Shape") as [Ht|]; cbn [negb]; [|discriminate].
  destruct (ninputs m') as [|i more] eqn:Ei; [discriminate|]. destruct (ty_shape_known (aty i)) eqn:Es; [|discriminate].
  intros H. inversion H; subst.
  assert (G : forall l, producer_of l x = Some m -> In m l /\ In x (map aname (noutputs m))).
  { induction l as [|n l IH]; cbn; [discriminate|]. destruct (producer_of l x) as [q|].
    - intros K. inversion K; subst. destruct (IH eq_refl). auto.
    - destruct (mem_str x (map aname (noutputs n))) eqn:Em; [|discriminate]. intros K; inversion K; subst. split; [left; reflexivity|apply mem_str_In; exact Em]. }
  destruct (G _ E) as [K1 K2]. split; [exact K1|]. split; [exact K2|]. split; [exact Ht|]. exists i, more. auto.
Qed.

(** The dimension found is the gathered one. *)
Lemma extract_dim_ok value nodes n z :
  extract_dim value nodes n = Done z ->
  exists i0 i1 more m i mi s v k,
    ninputs n = i0 :: i1 :: more /\ In m nodes /\ In (aname i0) (map aname (noutputs m)) /\ ntype m = "Shape"%string /\
    ninputs m = i :: mi /\ ty_shape_known (aty i) = Some s /\ attr_int (nattrs n) "axis" 0 = 0 /\
    value i1 = Some v /\ scalar_i64 v = Done k /\
    forall z', let l := map Z.of_N (shape_value s (attr_int (nattrs m) "start" 0) (attr_int (nattrs m) "end" (Z.of_nat (length s)))) in
      (0 <= k \/ sget (nattrs m) "end" = None) -> element l k z' -> z = z'.
Proof.
  unfold extract_dim. intros H. ev_inv H. destruct (negb _) in H; [discriminate|]. ev_inv H.
  destruct (Z.eqb_spec a0 0) as [Ha0|]; cbn [negb] in H; [|discriminate]. destruct (ninputs n) as [|i0 [|i1 more]]; try discriminate.
  ev_inv H. destruct a1 as [m s]. ev_inv H.
  destruct (shape_producer_ok _ _ _ _ E1) as (Hm & Ho & Ht & i & mi & Hi & Hs).
  apply int_attr_ok in E0, E2. apply try_ok in E3. exists i0, i1, more, m, i, mi, s, a2, a3.
  do 6 (split; [first [reflexivity|assumption]|]). split; [congruence|]. split; [exact E3|]. split; [exact E4|]. cbv zeta.
  intros z' Hend [Hb Hel]. rewrite E2 in Hb, Hel. rewrite shape_value_eq in Hb, Hel.
  set (r := Z.of_nat (length s)) in *.
  set (b := clamp 0 r (from_end r (attr_int (nattrs m) "end" r))) in *.
  set (a' := clamp 0 r (from_end r a1)) in *.
  set (st := Z.max (if a1 <? 0 then a1 + r else a1) 0) in *.
  destruct (Z.ltb_spec (r - st) 0); [discriminate|].
  assert (Est : a' = st) by (unfold a', st, clamp, from_end; lia).
  assert (Hl : Z.of_nat (length (map Z.of_N (firstn (Z.to_nat (b - a')) (skipn (Z.to_nat a') s)))) = Z.max 0 (b - a')).
  { rewrite map_length, firstn_length, skipn_length. unfold b, a', clamp in *. lia. }
  rewrite Hl in Hb, Hel. rewrite nth_error_map in Hel.
  assert (Hbr : 0 <= b <= r) by (unfold b, clamp; lia).
  set (k := a3) in *.
  assert (Hk : (if k <? 0 then k + Z.max 0 (b - a') else k) = (if k <? 0 then k + (r - st) else k)).
  { destruct (Z.ltb_spec k 0); [|reflexivity]. destruct Hend as [|Hn]; [lia|].
    assert (b = r); [|lia]. unfold b, clamp, from_end. unfold attr_int. rewrite Hn. destruct (Z.ltb_spec r 0); lia. }
  rewrite Hk in Hel. set (q := if k <? 0 then k + (r - st) else k) in *.
  destruct ((q <? 0) || (q >=? r - st))%bool eqn:Eq; [discriminate|]. inversion H; subst z. clear H.
  assert (Hq : 0 <= q < r - st) by lia.
  assert (Hq' : q < b - a') by (destruct (Z.ltb_spec k 0); lia).
  rewrite nth_error_firstn in Hel by lia. rewrite nth_error_skipn in Hel.
  replace (Z.to_nat a' + Z.to_nat q)%nat with (Z.to_nat (st + q)) in Hel by lia.
  destruct (nth_error s (Z.to_nat (st + q))) as [d|] eqn:Ed; cbn in Hel; [|discriminate].
  rewrite (nth_error_nth _ _ _ Ed). congruence.
Qed.

(** Two lists in strict order with the same elements are equal. *)
Lemma sorted_ext {A} (R : A -> A -> Prop) : (forall x, ~ R x x) -> (forall x y z, R x y -> R y z -> R x z) ->
  forall l l', StronglySorted R l -> StronglySorted R l' -> (forall x, In x l <-> In x l') -> l = l'.
Proof.
  intros Hir Htr. induction l as [|x l IH]; intros [|y l'] H H' Hin.
  - reflexivity.
  - exfalso. apply (proj2 (Hin y)). left; reflexivity.
  - exfalso. apply (proj1 (Hin x)). left; reflexivity.
  - inversion H as [|? ? S1 F1]; inversion H' as [|? ? S2 F2]; subst. rewrite Forall_forall in F1, F2.
    assert (x = y).
    { destruct (proj1 (Hin x) (or_introl eq_refl)) as [|Hx]; [congruence|].
      destruct (proj2 (Hin y) (or_introl eq_refl)) as [|Hy]; [congruence|].
      exfalso. apply (Hir x). eapply Htr; [apply F1; exact Hy|apply F2; exact Hx]. }
    subst y. f_equal. apply IH; [assumption|assumption|]. intros z. split; intros Hz.
    + destruct (proj1 (Hin z) (or_intror Hz)) as [->|]; [|assumption]. exfalso. apply (Hir z). apply F1; exact Hz.
    + destruct (proj2 (Hin z) (or_intror Hz)) as [->|]; [|assumption]. exfalso. apply (Hir z). apply F2; exact Hz.
Qed.
Lemma sorted_filter {A} (R : A -> A -> Prop) f l : StronglySorted R l -> StronglySorted R (filter f l).
Proof.
  induction 1 as [|x l H IH F]; cbn; [constructor|]. destruct (f x); [|exact IH]. constructor; [exact IH|].
  rewrite Forall_forall in *. intros y Hy. apply filter_In in Hy. apply F. apply Hy.
Qed.
Lemma sorted_seq n : forall s, StronglySorted lt (seq s n).
Proof.
  induction n as [|n IH]; intros s; cbn; constructor; [apply IH|]. rewrite Forall_forall. intros x Hx. apply in_seq in Hx. lia.
Qed.
Lemma sorted_app {A} (R : A -> A -> Prop) l l' : StronglySorted R l -> StronglySorted R l' -> (forall x y, In x l -> In y l' -> R x y) -> StronglySorted R (l ++ l').
Proof.
  induction 1 as [|x l H IH F]; intros H' Hx; cbn; [exact H'|]. constructor; [apply IH; [exact H'|intros; apply Hx; [right|]; assumption]|].
  rewrite Forall_forall in *. intros y Hy. apply in_app_iff in Hy. destruct Hy as [Hy|Hy]; [apply F; exact Hy|apply Hx; [left; reflexivity|exact Hy]].
Qed.
Lemma sorted_rev l : StronglySorted lt l -> StronglySorted gt (rev l).
Proof.
  induction 1 as [|x l H IH F]; cbn; [constructor|]. apply sorted_app; [exact IH|repeat constructor|].
  intros a b Ha [<-|[]]. rewrite Forall_forall in F. apply in_rev in Ha. specialize (F _ Ha). lia.
Qed.

Fixpoint pos_up (fuel : nat) (i stop step : Z) : list nat :=
  match fuel with O => [] | S f => if i <? stop then Z.to_nat i :: pos_up f (i + step) stop step else [] end.
Lemma walk_pos : forall fuel vals i stop step, walk_up fuel vals i stop step = map (fun k => nth k vals 0) (pos_up fuel i stop step).
Proof. induction fuel as [|f IH]; intros; cbn; [reflexivity|]. destruct (i <? stop); cbn; [rewrite IH|]; reflexivity. Qed.
Lemma pos_up_In : forall fuel i stop step k, 0 <= i -> 0 < step -> stop - i <= Z.of_nat fuel ->
  (In k (pos_up fuel i stop step) <-> i <= Z.of_nat k < stop /\ (Z.of_nat k - i) mod step = 0).
Proof.
  induction fuel as [|f IH]; intros i stop step k Hi Hs Hf; cbn [pos_up].
  - split; [intros []|lia].
  - destruct (Z.ltb_spec i stop); [|split; [intros []|lia]]. cbn [In]. rewrite IH by lia. split.
    + intros [<-|[H1 H2]].
      * rewrite Z2Nat.id by lia. rewrite Z.sub_diag, Z.mod_0_l by lia. lia.
      * split; [lia|]. replace (Z.of_nat k - i) with (Z.of_nat k - (i + step) + 1 * step) by lia. rewrite Z.mod_add by lia. exact H2.
    + intros [H1 H2]. destruct (Z.eq_dec (Z.of_nat k) i) as [E|E]; [left; lia|]. right.
      assert (i + step <= Z.of_nat k).
      { destruct (Z.lt_ge_cases (Z.of_nat k) (i + step)); [|assumption]. rewrite Z.mod_small in H2 by lia. lia. }
      split; [lia|]. replace (Z.of_nat k - i) with (Z.of_nat k - (i + step) + 1 * step) in H2 by lia. rewrite Z.mod_add in H2 by lia. exact H2.
Qed.
Lemma pos_up_sorted : forall fuel i stop step, 0 <= i -> 0 < step -> StronglySorted lt (pos_up fuel i stop step) /\ Forall (fun k => i <= Z.of_nat k) (pos_up fuel i stop step).
Proof.
  induction fuel as [|f IH]; intros i stop step Hi Hs; cbn; [split; constructor|]. destruct (i <? stop); [|split; constructor].
  destruct (IH (i + step) stop step) as [K1 K2]; [lia|lia|]. split.
  - constructor; [exact K1|]. eapply Forall_impl; [|exact K2]. cbn. intros; lia.
  - constructor; [lia|]. eapply Forall_impl; [|exact K2]. cbn. intros; lia.
Qed.

Lemma slice_up_ok l start stop step : 0 < step -> let d := Z.of_nat (length l) in
  let norm z := Z.max 0 (Z.min d (if z <? 0 then z + d else z)) in
  walk_up (S (length l)) l (norm start) (norm stop) step = slice_list l start stop step.
Proof.
  intros Hs d norm. rewrite walk_pos. unfold slice_list. destruct (Z.ltb_spec 0 step); [|lia]. f_equal.
  assert (Hn : 0 <= norm start) by (unfold norm; lia).
  apply (sorted_ext lt); [intros; lia|intros; lia|apply pos_up_sorted; assumption|apply sorted_filter, sorted_seq|].
  intros k. rewrite pos_up_In by (unfold norm, d; lia). rewrite filter_In, in_seq. unfold taken.
  destruct (Z.ltb_spec 0 step); [|lia]. fold d. unfold clamp, from_end. fold (norm start) (norm stop).
  assert (norm stop <= d) by (unfold norm; lia). unfold d in *. split.
  - intros [U1 U2]. split; [lia|]. rewrite !andb_true_iff. lia.
  - intros [U1 U2]. rewrite !andb_true_iff in U2. lia.
Qed.

Fixpoint pos_down (fuel : nat) (i stop step : Z) : list nat :=
  match fuel with O => [] | S f => if i >? stop then Z.to_nat i :: pos_down f (i + step) stop step else [] end.
Lemma pos_down_In : forall fuel i stop step k, 0 <= stop -> step < 0 -> i - stop <= Z.of_nat fuel ->
  (In k (pos_down fuel i stop step) <-> stop < Z.of_nat k <= i /\ (i - Z.of_nat k) mod (- step) = 0).
Proof.
  induction fuel as [|f IH]; intros i stop step k Hi Hs Hf; cbn [pos_down].
  - split; [intros []|lia].
  - destruct (Z.gtb_spec i stop); [|split; [intros []|lia]]. cbn [In]. rewrite IH by lia. split.
    + intros [<-|[H1 H2]].
      * rewrite Z2Nat.id by lia. rewrite Z.sub_diag, Z.mod_0_l by lia. lia.
      * split; [lia|]. replace (i - Z.of_nat k) with (i + step - Z.of_nat k + 1 * (- step)) by lia. rewrite Z.mod_add by lia. exact H2.
    + intros [H1 H2]. destruct (Z.eq_dec (Z.of_nat k) i) as [E|E]; [left; lia|]. right.
      assert (Z.of_nat k <= i + step).
      { destruct (Z.le_gt_cases (Z.of_nat k) (i + step)); [assumption|]. rewrite Z.mod_small in H2 by lia. lia. }
      split; [lia|]. replace (i - Z.of_nat k) with (i + step - Z.of_nat k + 1 * (- step)) in H2 by lia. rewrite Z.mod_add in H2 by lia. exact H2.
Qed.
Lemma pos_down_sorted : forall fuel i stop step, 0 <= stop -> step < 0 -> StronglySorted gt (pos_down fuel i stop step) /\ Forall (fun k => Z.of_nat k <= i) (pos_down fuel i stop step).
Proof.
  induction fuel as [|f IH]; intros i stop step Hi Hs; cbn; [split; constructor|]. destruct (Z.gtb_spec i stop); [|split; constructor].
  destruct (IH (i + step) stop step) as [K1 K2]; [lia|lia|]. split.
  - constructor; [exact K1|]. eapply Forall_impl; [|exact K2]. cbn. intros; lia.
  - constructor; [lia|]. eapply Forall_impl; [|exact K2]. cbn. intros; lia.
Qed.
Lemma walk_down_pos : forall fuel vals i stop step, 0 <= stop -> step < 0 -> i < Z.of_nat (length vals) ->
  walk_down fuel vals i stop step = Done (map (fun k => nth k vals 0) (pos_down fuel i stop step)).
Proof.
  induction fuel as [|f IH]; intros vals i stop step H1 H2 H3; cbn; [reflexivity|]. destruct (Z.gtb_spec i stop); [|reflexivity].
  rewrite IH by lia. destruct (nth_error vals (Z.to_nat i)) as [v|] eqn:E; [|apply nth_error_None in E; lia].
  cbn. rewrite (nth_error_nth _ _ _ E). reflexivity.
Qed.

(** Negative steps, when the start is inside the list and the end not before it. *)
Lemma slice_down_ok l start stop step : step < 0 -> let d := Z.of_nat (length l) in
  let norm z := Z.max 0 (Z.min d (if z <? 0 then z + d else z)) in
  0 <= from_end d start < d -> 0 <= from_end d stop ->
  walk_down (S (length l)) l (norm start) (norm stop) step = Done (slice_list l start stop step).
Proof.
  intros Hs d norm Ha Hb.
  assert (Hn : norm start = from_end d start) by (unfold norm, from_end in *; lia).
  assert (Hm : norm stop = Z.min d (from_end d stop)) by (unfold norm, from_end in *; lia).
  rewrite walk_down_pos by (rewrite ?Hn, ?Hm; unfold d in *; lia). f_equal. unfold slice_list.
  destruct (Z.ltb_spec 0 step); [lia|]. f_equal.
  apply (sorted_ext gt); [intros; lia|intros; lia|apply pos_down_sorted; lia|apply sorted_rev, sorted_filter, sorted_seq|].
  intros k. rewrite pos_down_In by (rewrite ?Hn, ?Hm; unfold d in *; lia). rewrite <- in_rev, filter_In, in_seq. unfold taken.
  destruct (Z.ltb_spec 0 step); [lia|]. fold d.
  assert (clamp 0 (d - 1) (from_end d start) = from_end d start) as -> by (unfold clamp; lia).
  assert (clamp (-1) (d - 1) (from_end d stop) = Z.min (d - 1) (from_end d stop)) as -> by (unfold clamp; lia).
  rewrite Hn, Hm. unfold d in *. split.
  - intros [U1 U2]. split; [lia|]. rewrite !andb_true_iff. lia.
  - intros [U1 U2]. rewrite !andb_true_iff in U2. lia.
Qed.

Lemma full_shape_ok m s l : full_shape m s = Done l ->
  (- Z.of_nat (length s) <= attr_int (nattrs m) "end" (Z.of_nat (length s))) ->
  l = map Z.of_N (shape_value s (attr_int (nattrs m) "start" 0) (attr_int (nattrs m) "end" (Z.of_nat (length s)))).
Proof.
  unfold full_shape. intros H He. ev_inv H. apply int_attr_ok in E, E0. rewrite E, E0 in *. rewrite shape_value_eq.
  set (r := Z.of_nat (length s)) in *. unfold clamp, from_end.
  set (st := if a <? 0 then a + r else a) in *. set (en := if a0 <? 0 then a0 + r else a0) in *.
  assert (0 <= en) by (unfold en; destruct (Z.ltb_spec a0 0); lia). destruct (Z.ltb_spec en 0); [lia|].
  destruct (Z.geb_spec (Z.max st 0) (Z.min en r)) as [K|K]; inversion H; subst.
  - replace (Z.to_nat _) with 0%nat by lia. reflexivity.
  - replace (Z.max 0 (Z.min r en)) with (Z.min en r) by lia. replace (Z.max 0 (Z.min r st)) with (Z.max st 0) by lia. reflexivity.
Qed.

Lemma extract_slice_ok value nodes n out :
  extract_slice value nodes n = Done out ->
  exists i0 i1 i2 more m i mi s starts ends axes steps,
    ninputs n = i0 :: i1 :: i2 :: more /\ In m nodes /\ In (aname i0) (map aname (noutputs m)) /\ ntype m = "Shape"%string /\
    ninputs m = i :: mi /\ ty_shape_known (aty i) = Some s /\
    value i1 = Some starts /\ value i2 = Some ends /\
    (match more with a :: _ => exists v, value a = Some v /\ to_i64_vec v = Some axes | [] => True end) /\
    (match more with _ :: a :: _ => exists v, value a = Some v /\ to_i64_vec v = Some steps | _ => steps = [1] end) /\
    forall a b step,
      let d := Z.of_nat (length s) in
      let l := map Z.of_N (shape_value s (attr_int (nattrs m) "start" 0) (attr_int (nattrs m) "end" d)) in
      let len := Z.of_nat (length l) in
      to_i64_vec starts = Some [a] -> to_i64_vec ends = Some [b] -> steps = [step] ->
      - d <= attr_int (nattrs m) "end" d ->
      0 < step \/ (0 <= from_end len a < len /\ 0 <= from_end len b) ->
      out = slice_list l a b step.
Proof.
  unfold extract_slice. intros H. destruct (ninputs n) as [|i0 [|i1 [|i2 more]]] eqn:Ein; try discriminate.
  ev_inv H. destruct a as [m s]. ev_inv H. destruct (shape_producer_ok _ _ _ _ E) as (Hm & Ho & Ht & i & mi & Hi & Hs).
  destruct (value i1) as [starts|] eqn:V1; cbn [try ebind] in E1; [|discriminate].
  destruct (value i2) as [ends|] eqn:V2; cbn [try ebind] in E2; [|discriminate].
  apply try_ok in E1, E2. destruct (Nat.eqb_spec (length a0) (length a1)) as [Hlen|]; cbn [negb] in H; [|discriminate].
  ev_inv H.
  destruct (negb (Nat.eqb (length a2) (length a0)) || negb (Nat.eqb (length a3) (length a0)))%bool eqn:El; [discriminate|].
  destruct (existsb _ a2); [discriminate|].
  exists i0, i1, i2, more, m, i, mi, s, starts, ends, a2, (match more with _ :: _ :: _ => a3 | _ => [1] end).
  do 8 (split; [first [reflexivity|assumption]|]).
  unfold slice_operand in E3, E4. rewrite Ein in E3, E4. cbn [nth_error] in E3, E4.
  split. { destruct more as [|q more]; [exact I|]. cbn in E3. ev_inv E3. apply try_ok in E3, E5. exists a4. auto. }
  split. { destruct more as [|q [|q' more]]; try reflexivity. cbn in E4. ev_inv E4. apply try_ok in E4, E5. exists a4. auto. }
  cbv zeta. intros u b step H1 H2 H3 He Hstep. rewrite E1 in H1. rewrite E2 in H2. inversion H1; inversion H2; subst a0 a1.
  assert (a3 = [step]).
  { destruct more as [|q [|q' more]]; [| |exact H3]; cbn in E4, H3; congruence. }
  subst a3. pose proof (full_shape_ok _ _ _ E0 He) as Hv. subst a.
  set (l := map Z.of_N (shape_value s (attr_int (nattrs m) "start" 0) (attr_int (nattrs m) "end" (Z.of_nat (length s))))) in *.
  destruct (Z.eqb_spec step 0); [discriminate|].
  destruct (Z.ltb_spec 0 step) as [Hp|Hp].
  - inversion H. apply slice_up_ok. exact Hp.
  - destruct Hstep as [|[Ha Hb]]; [lia|].
    assert (step < 0) by lia. pose proof (slice_down_ok l u b step ltac:(lia) Ha Hb) as K. cbv zeta in K. rewrite K in H. congruence.
Qed.

(** The pass. *)
Definition wanted_step (wanted : rnode -> ev (list Z * argty)) (s : store) (n : rnode) (d : fdata) (ty : argty) : Prop :=
  exists l, wanted n = Done (l, ty) /\ d = shape_data l ty.

Lemma replace_nodes_repl wanted : (forall n x, wanted n = Done x -> ntype n <> "Constant"%string) ->
  forall nodes s s' nodes' names, replace_nodes wanted s nodes = Done (s', nodes', names) -> repl (wanted_step wanted) s nodes s' nodes' names.
Proof.
  intros Hw. induction nodes as [|n r IH]; intros s s' nodes' names H; cbn [replace_nodes] in H; [inversion H; constructor|].
  destruct (wanted n) as [| |[l ty]] eqn:En; [|discriminate|].
  - destruct (replace_nodes wanted s r) as [| |[[s1 r'] outs]] eqn:E; cbn in H; try discriminate. inversion H; subst. apply repl_keep. apply IH. exact E.
  - destruct (noutputs n) as [|o os] eqn:Eo; [discriminate|]. cbn [register_constant] in H.
    match type of H with ebind (replace_nodes _ ?s1 r) _ = _ => destruct (replace_nodes wanted s1 r) as [| |[[s2 r'] outs]] eqn:E end; cbn in H; try discriminate.
    inversion H; subst. eapply repl_const; [exact Eo|eapply Hw; exact En|exists l; split; [exact En|reflexivity]|]. apply IH. exact E.
Qed.

Lemma repl_outs P s nodes s' nodes' names : repl P s nodes s' nodes' names ->
  (forall s n d ty, In n nodes -> P s n d ty -> length (noutputs n) = 1%nat) -> outs_of nodes' = outs_of nodes.
Proof.
  induction 1 as [s|s n r s' r' names H IH|s n r o os d ty s' r' names Ho Hc HP H IH]; intros H1; unfold outs_of in *; cbn; [reflexivity| |].
  - f_equal. apply IH. intros; eapply H1; [right|]; eassumption.
  - rewrite IH by (intros; eapply H1; [right|]; eassumption). pose proof (H1 _ _ _ _ (or_introl eq_refl) HP) as K. rewrite Ho in K |- *.
    destruct os; [reflexivity|discriminate].
Qed.

Section ShapePass.
  Variable sem : string -> list (string * attr) -> nat -> list (option fdata) -> option (list fdata).
  Variable s : store.
  Variable nodes : list rnode.
  Variables e0 ef : string -> option fdata.
  Hypothesis Hc : constants_mean sem.
  Hypothesis Hm : shapes_mean sem.
  Hypothesis Hssa : ssa e0 nodes.
  Hypothesis Hs : store_ok s.
  Hypothesis Hl : linked s nodes.
  Hypothesis Hr : run sem (st_get s) e0 nodes = Some ef.
  Hypothesis H1o : single_outputs shape_ops nodes.
  Hypothesis Ht : exactly_typed ["Gather"]%string nodes ef.
  Hypothesis Hk : shapes_known nodes (st_get s) ef.
  Hypothesis Hap : apart nodes.
  Hypothesis Hw : whole_shapes nodes.
  Hypothesis Hf : forward_slices s nodes.

  Let holds_all n : In n nodes -> holds sem (st_get s) ef n.
  Proof. intros Hn. pose proof (run_holds sem (st_get s) _ _ _ Hssa Hr) as Hh. rewrite Forall_forall in Hh. auto. Qed.

  Let value_is n a d v : In n nodes -> In a (ninputs n) -> st_value s a = Some d -> arg_eval (st_get s) ef a = Some v -> v = Some d.
  Proof. intros. eapply value_arg; [apply (knows_start sem s nodes e0 ef)|..]; eassumption. Qed.

  (** The list a reader of a Shape node sees. *)
  Lemma shape_read n a m i mi sh x : In n nodes -> In a (ninputs n) -> In m nodes -> In (aname a) (map aname (noutputs m)) ->
    ntype m = "Shape"%string -> ninputs m = i :: mi -> ty_shape_known (aty i) = Some sh -> arg_eval (st_get s) ef a = Some (Some x) ->
    fd_vals x = XI64 (map Z.of_N (shape_value sh (attr_int (nattrs m) "start" 0) (attr_int (nattrs m) "end" (Z.of_nat (length sh))))).
  Proof.
    intros Hn Ha Hmn Ho Tm Im Hsh Hv.
    assert (Hx : ef (aname a) = Some x).
    { pose proof (Hap _ _ Hn Ha) as Hna. unfold arg_eval in Hv. destruct (asrc a); try discriminate.
      - exfalso. apply Hna. apply in_flat_map. exists m. auto.
      - destruct (ef (aname a)); cbn in Hv; congruence.
      - destruct (ef (aname a)); cbn in Hv; congruence. }
    destruct (H1o _ Hmn) as (o & Oo); [rewrite Tm; apply mem_str_In; reflexivity|].
    destruct (holds_all m Hmn) as (vs & outs & H1 & H2 & H3). rewrite Oo in H2. cbn [length] in H2. rewrite Tm in H2.
    destruct (proj1 Hm _ _ _ H2) as (y & r & -> & -> & Hsv). unfold out_names in H3. rewrite Oo in H3. inversion H3; subst.
    rewrite Oo in Ho. cbn in Ho. destruct Ho as [Ho|[]]. rewrite <- Ho in Hx.
    assert (r = x) by congruence. subst r. unfold shape_of in Hsv. cbv zeta in Hsv.
    assert (Ey : fd_shape y = sh).
    { eapply Hk; [exact Hmn|exact Tm|exact Im| |exact Hsh]. rewrite Im in H1. cbn in H1.
      destruct (arg_eval (st_get s) ef i) as [w|]; [|discriminate]. destruct (args_eval (st_get s) ef mi); [|discriminate]. congruence. }
    rewrite Ey in Hsv. rewrite Hsv. reflexivity.
  Qed.

  Lemma args_nth : forall l vs k a, args_eval (st_get s) ef l = Some vs -> nth_error l k = Some a ->
    exists v, nth_error vs k = Some v /\ arg_eval (st_get s) ef a = Some v.
  Proof.
    induction l as [|b l IH]; intros vs [|k] a H Ha; cbn in H, Ha; try discriminate.
    - inversion Ha; subst. destruct (arg_eval (st_get s) ef a) as [v|]; [|discriminate]. destruct (args_eval (st_get s) ef l); [|discriminate].
      inversion H; subst. exists v. auto.
    - destruct (arg_eval (st_get s) ef b) as [v|]; [|discriminate]. destruct (args_eval (st_get s) ef l) as [ws|]; [|discriminate].
      inversion H; subst. cbn. eapply IH; eauto.
  Qed.

  Lemma args_len : forall l vs, args_eval (st_get s) ef l = Some vs -> length vs = length l.
  Proof.
    induction l as [|q l IH]; intros vs H; cbn in H; [inversion H; reflexivity|].
    destruct (arg_eval (st_get s) ef q); [|discriminate]. destruct (args_eval (st_get s) ef l) as [ws|]; [|discriminate].
    inversion H; subst. cbn. f_equal. apply IH. reflexivity.
  Qed.

  Lemma gather_right st n d ty : In n nodes -> wanted_step (wanted_gather s nodes) st n d ty ->
    exists o, noutputs n = [o] /\ forall r, ef (aname o) = Some r -> d = r.
  Proof.
    intros Hn (l & Hwant & ->). unfold wanted_gather in Hwant.
    destruct (String.eqb_spec (ntype n) "Gather") as [Tn|]; cbn [negb orb] in Hwant; [|discriminate].
    destruct (Nat.ltb _ _); [discriminate|]. ev_inv Hwant. inversion Hwant; subst. clear Hwant.
    destruct (extract_dim_ok _ _ _ _ E) as (i0 & i1 & more & m & i & mi & sh & v & k & Ein & Hmn & Ho & Tm & Im & Hsh & Hax & Hv & Hk1 & Hdim).
    destruct (H1o _ Hn) as (o & Oo); [rewrite Tn; apply mem_str_In; reflexivity|]. exists o. split; [exact Oo|]. intros r Hro.
    destruct (holds_all n Hn) as (vs & outs & H1 & H2 & H3). rewrite Oo in H2. cbn [length] in H2. rewrite Tn in H2.
    destruct (proj1 (proj2 Hm) _ _ _ H2) as (x & idx & r' & -> & -> & Hg). specialize (Hg Hax).
    unfold out_names in H3. rewrite Oo in H3. inversion H3; subst. assert (r' = r) by congruence. subst r'.
    destruct (args_nth _ _ 0 i0 H1) as (w0 & W0 & A0); [rewrite Ein; reflexivity|]. cbn in W0. inversion W0; subst w0.
    destruct (args_nth _ _ 1 i1 H1) as (w1 & W1 & A1); [rewrite Ein; reflexivity|]. cbn in W1. inversion W1; subst w1.
    assert (Hin0 : In i0 (ninputs n)) by (rewrite Ein; left; reflexivity).
    assert (Hin1 : In i1 (ninputs n)) by (rewrite Ein; right; left; reflexivity).
    pose proof (shape_read n i0 m i mi sh x Hn Hin0 Hmn Ho Tm Im Hsh A0) as Hx.
    pose proof (value_is n i1 v _ Hn Hin1 Hv A1) as Ev. inversion Ev; subst v. clear Ev.
    destruct (Hg _ Hx) as (ks & zs & Hks & Hel & -> & Hwf).
    apply first_out_ok in E0. destruct E0 as (o' & os & Oo' & ->). rewrite Oo in Oo'. inversion Oo'; subst o' os.
    assert (Hty : exact_type (aty o) (mkFD (fd_shape idx) (XI64 zs))).
    { apply (Ht n o); [exact Hn|rewrite Tn; left; reflexivity| |exact Oo|exact Hro].
      intros q Hq Hd. rewrite Ein in Hq. destruct Hq as [<-|[<-|Hq]].
      - eapply settled_shape; eassumption.
      - unfold st_value in Hv. rewrite Hd in Hv. discriminate.
      - exfalso. apply args_len in H1. rewrite Ein in H1. destruct more; [exact Hq|discriminate]. }
    assert (Hshape : shape_data [a] (aty o) = mkFD (fd_shape idx) (XI64 [a]) /\ length ks = 1%nat).
    { unfold extract_dim, first_out in E. rewrite Oo in E. cbn [ebind] in E.
      assert (Lk : N.of_nat (length ks) = prodN (fd_shape idx)).
      { destruct Hwf as [Hwf _]. unfold to_i64_vec in Hks. destruct (fd_vals idx); inversion Hks; subst; exact Hwf. }
      destruct (aty o) as [t|t|q|t] eqn:Ety; cbn in Hty; try (cbn in E; discriminate).
      - destruct Hty as [_ Hq]. rewrite Hq in Lk |- *. cbn in Lk. split; [reflexivity|lia].
      - destruct Hty as [_ Hq]. destruct (N.eqb_spec q 1) as [->|]; [|cbn in E; discriminate]. rewrite Hq in Lk |- *. cbn in Lk. split; [reflexivity|lia]. }
    destruct Hshape as [-> Hlk]. destruct ks as [|k0 [|]]; try discriminate. inversion Hel as [|? z' ? zs' Hz Hel']; subst. inversion Hel'; subst.
    assert (k0 = k). { unfold scalar_i64 in Hk1. unfold to_i64_vec in Hks. destruct (fd_vals idx); inversion Hks; subst; congruence. }
    subst k0. rewrite (Hdim z'); [reflexivity|right; apply Hw; assumption|exact Hz].
  Qed.

  (** The nodes taken compute with constants and shapes alone. *)
  Lemma gather_settled st n d ty : In n nodes -> wanted_step (wanted_gather s nodes) st n d ty -> settled_inputs nodes n.
  Proof.
    intros Hn (l & Hwant & ->). unfold wanted_gather in Hwant.
    destruct (String.eqb_spec (ntype n) "Gather") as [Tn|]; cbn [negb orb] in Hwant; [|discriminate].
    destruct (Nat.ltb _ _); [discriminate|]. ev_inv Hwant. inversion Hwant; subst. clear Hwant.
    destruct (extract_dim_ok _ _ _ _ E) as (i0 & i1 & more & m & i & mi & sh & v & k & Ein & Hmn & Ho & Tm & Im & Hsh & Hax & Hv & Hk1 & Hdim).
    destruct (H1o _ Hn) as (o & Oo); [rewrite Tn; apply mem_str_In; reflexivity|].
    destruct (holds_all n Hn) as (vs & outs & H1 & H2 & H3). rewrite Oo in H2. cbn [length] in H2. rewrite Tn in H2.
    destruct (proj1 (proj2 Hm) _ _ _ H2) as (x & idx & r' & -> & -> & Hg).
    intros q Hq Hd. rewrite Ein in Hq. destruct Hq as [<-|[<-|Hq]].
    - eapply settled_shape; eassumption.
    - unfold st_value in Hv. rewrite Hd in Hv. discriminate.
    - exfalso. apply args_len in H1. rewrite Ein in H1. destruct more; [exact Hq|discriminate].
  Qed.
  Lemma slice_settled nodes1 st n d ty : In n nodes -> (forall m, In m nodes1 -> ntype m = "Shape"%string -> In m nodes) ->
    wanted_step (wanted_slice s nodes1) st n d ty -> settled_inputs nodes n.
  Proof.
    intros Hn Hsub (l & Hwant & ->). unfold wanted_slice in Hwant.
    destruct (String.eqb_spec (ntype n) "Slice") as [Tn|]; cbn [negb] in Hwant; [|discriminate].
    ev_inv Hwant. inversion Hwant; subst. clear Hwant.
    destruct (extract_slice_ok _ _ _ _ E) as (i0 & i1 & i2 & more & m & i & mi & sh & starts & ends & axes & steps &
      Ein & Hmn & Ho & Tm & Im & Hsh & V1 & V2 & Hax & Hst & Hval).
    apply Hsub in Hmn; [|exact Tm].
    destruct (H1o _ Hn) as (o & Oo); [rewrite Tn; apply mem_str_In; reflexivity|].
    destruct (holds_all n Hn) as (vs & outs & H1 & H2 & H3). rewrite Oo in H2. cbn [length] in H2. rewrite Tn in H2.
    destruct (proj2 (proj2 Hm) _ _ _ H2) as (x & av & bv & mv & r' & -> & Hlen & -> & Hsl).
    apply args_len in H1. rewrite Ein in H1. cbn in H1.
    assert (Hnot : forall a v, st_value s a = Some v -> asrc a = VDynamic -> False).
    { intros a v Ha Hd. unfold st_value in Ha. rewrite Hd in Ha. discriminate. }
    intros q Hq Hd. rewrite Ein in Hq. destruct Hq as [<-|[<-|[<-|Hq]]].
    - eapply settled_shape; eassumption.
    - exfalso. exact (Hnot _ _ V1 Hd).
    - exfalso. exact (Hnot _ _ V2 Hd).
    - exfalso. destruct more as [|q1 [|q2 [|q3 more]]]; cbn in Hq; [exact Hq| | |cbn in H1; lia].
      + destruct Hq as [<-|[]]. destruct Hax as (v & Hv & _). exact (Hnot _ _ Hv Hd).
      + destruct Hax as (v & Hv & _). destruct Hst as (w & Hw' & _).
        destruct Hq as [<-|[<-|[]]]; [eapply Hnot; [exact Hv|exact Hd]|eapply Hnot; [exact Hw'|exact Hd]].
  Qed.

  Lemma slice_right nodes1 st n d ty : In n nodes -> (forall m, In m nodes1 -> ntype m = "Shape"%string -> In m nodes) ->
    wanted_step (wanted_slice s nodes1) st n d ty ->
    exists o, noutputs n = [o] /\ forall r, ef (aname o) = Some r -> d = r.
  Proof.
    intros Hn Hsub HP. pose proof (slice_settled _ _ _ _ _ Hn Hsub HP) as Hsettled. destruct HP as (l & Hwant & ->). unfold wanted_slice in Hwant.
    destruct (String.eqb_spec (ntype n) "Slice") as [Tn|]; cbn [negb] in Hwant; [|discriminate].
    ev_inv Hwant. inversion Hwant; subst. clear Hwant.
    destruct (extract_slice_ok _ _ _ _ E) as (i0 & i1 & i2 & more & m & i & mi & sh & starts & ends & axes & steps &
      Ein & Hmn & Ho & Tm & Im & Hsh & V1 & V2 & Hax & Hst & Hval).
    apply Hsub in Hmn; [|exact Tm].
    destruct (H1o _ Hn) as (o & Oo); [rewrite Tn; apply mem_str_In; reflexivity|]. exists o. split; [exact Oo|]. intros r Hro.
    destruct (holds_all n Hn) as (vs & outs & H1 & H2 & H3). rewrite Oo in H2. cbn [length] in H2. rewrite Tn in H2.
    destruct (proj2 (proj2 Hm) _ _ _ H2) as (x & av & bv & mv & r' & -> & Hlen & -> & Hsl).
    unfold out_names in H3. rewrite Oo in H3. inversion H3; subst. assert (r' = r) by congruence. subst r'.
    destruct (args_nth _ _ 0 i0 H1) as (w0 & W0 & A0); [rewrite Ein; reflexivity|]. cbn in W0. inversion W0; subst w0.
    destruct (args_nth _ _ 1 i1 H1) as (w1 & W1 & A1); [rewrite Ein; reflexivity|]. cbn in W1. inversion W1; subst w1.
    destruct (args_nth _ _ 2 i2 H1) as (w2 & W2 & A2); [rewrite Ein; reflexivity|]. cbn in W2. inversion W2; subst w2.
    assert (Hin0 : In i0 (ninputs n)) by (rewrite Ein; cbn; auto).
    assert (Hin1 : In i1 (ninputs n)) by (rewrite Ein; cbn; auto).
    assert (Hin2 : In i2 (ninputs n)) by (rewrite Ein; cbn; auto).
    pose proof (shape_read n i0 m i mi sh x Hn Hin0 Hmn Ho Tm Im Hsh A0) as Hx.
    pose proof (value_is n i1 starts _ Hn Hin1 V1 A1) as Ev. inversion Ev; subst av. clear Ev.
    pose proof (value_is n i2 ends _ Hn Hin2 V2 A2) as Ev. inversion Ev; subst bv. clear Ev.
    destruct (Hsl _ Hx) as (a & b & step & Ha & Hb & Hstep & Hne & _ & ->).
    assert (Hend : sget (nattrs m) "end" = None) by (apply Hw; assumption).
    assert (Hmore : length mv = length more).
    { assert (G : forall l vs, args_eval (st_get s) ef l = Some vs -> length vs = length l).
      { clear. induction l as [|q l IH]; intros vs H; cbn in H; [inversion H; reflexivity|].
        destruct (arg_eval (st_get s) ef q); [|discriminate]. destruct (args_eval (st_get s) ef l) as [ws|]; [|discriminate].
        inversion H; subst. cbn. f_equal. apply IH. reflexivity. }
      apply G in H1. rewrite Ein in H1. cbn in H1. lia. }
    assert (Hpos : steps = [step] /\ 0 < step).
    { destruct more as [|q [|q' more]].
      - destruct mv; [|discriminate]. cbn in Hstep. subst. split; [reflexivity|lia].
      - destruct mv as [|? [|]]; try discriminate. cbn in Hstep. subst. split; [reflexivity|lia].
      - destruct Hst as (v & Hv & Hvs).
        destruct (args_nth _ _ 4 q' H1) as (w4 & W4 & A4); [rewrite Ein; reflexivity|]. cbn in W4.
        assert (Hin4 : In q' (ninputs n)) by (rewrite Ein; cbn; auto 10).
        pose proof (value_is n q' v _ Hn Hin4 Hv A4) as Ev. subst w4.
        destruct mv as [|? [|? ?]]; cbn in W4; try discriminate. inversion W4; subst. cbn in Hstep.
        assert (steps = [step]) by congruence. split; [assumption|].
        pose proof (Hf n q' v steps Hn Tn Hsettled) as Hfw. rewrite Ein in Hfw. specialize (Hfw eq_refl Hv Hvs). subst steps. inversion Hfw; assumption. }
    destruct Hpos as [-> Hpos].
    rewrite (Hval a b step Ha Hb eq_refl); [| |left; exact Hpos].
    - unfold shape_data. destruct (Nat.eqb _ 1); reflexivity.
    - unfold attr_int. rewrite Hend. lia.
  Qed.

  Lemma shape_run outputs s' nodes' outputs' : simplify_constant_shape s nodes outputs = Done (s', nodes', outputs') ->
    run sem (st_get s') e0 nodes' = Some ef /\ store_ok s' /\ linked s' nodes' /\ map aname outputs' = map aname outputs.
  Proof.
    unfold simplify_constant_shape. intros H.
    destruct (replace_nodes (wanted_gather s nodes) s nodes) as [| |[[s1 nodes1] names1]] eqn:E1; cbn [ebind] in H; try discriminate.
    destruct (replace_nodes (wanted_slice s nodes1) s1 nodes1) as [| |[[s2 nodes2] names2]] eqn:E2; cbn [ebind] in H; try discriminate.
    assert (Hfin : s' = s2 /\ nodes' = update_constant_references (names1 ++ names2) nodes2 /\ outputs' = map (to_constant (names1 ++ names2)) outputs).
    { destruct (names1 ++ names2) as [|q names] eqn:En; inversion H; subst; [rewrite update_nil, map_to_constant_nil|]; auto. }
    destruct Hfin as (-> & -> & ->). clear H.
    apply replace_nodes_repl in E1.
    2:{ intros n y. unfold wanted_gather. destruct (String.eqb_spec (ntype n) "Gather") as [->|]; [discriminate|]. discriminate. }
    apply replace_nodes_repl in E2.
    2:{ intros n y. unfold wanted_slice. destruct (String.eqb_spec (ntype n) "Slice") as [->|]; [discriminate|]. discriminate. }
    destruct (repl_run _ sem s nodes ef Hc (fun st n d ty _ Hn HP => gather_right st n d ty Hn HP) _ _ _ _ _ E1 e0 (fun n H => H)
      (knows_start sem s nodes e0 ef Hc Hssa Hr Hs Hl) Hssa Hr) as [Hk1 Hr1].
    specialize (Hr1 s1 (fun id d H => H)).
    assert (Ho1 : outs_of nodes1 = outs_of nodes).
    { eapply repl_outs; [exact E1|]. intros st n d ty Hn HP. destruct (gather_right _ _ _ _ Hn HP) as (o & -> & _). reflexivity. }
    assert (Hssa1 : ssa e0 nodes1). { unfold ssa in *. fold (outs_of nodes1). rewrite Ho1. exact Hssa. }
    assert (Hl1 : linked s1 nodes1) by (eapply repl_linked0; eassumption).
    assert (Hs1 : store_ok s1) by (apply Hk1).
    assert (Hsub : forall m, In m nodes1 -> ntype m <> "Constant"%string -> In m nodes).
    { intros m Hmn Hmt. destruct (repl_nodes _ _ _ _ _ _ E1 _ Hmn) as [|(nm & x & ty & id & ->)]; [assumption|]. exfalso. apply Hmt. reflexivity. }
    destruct (repl_run (wanted_step (wanted_slice s nodes1)) sem s1 nodes1 ef Hc) with (s := s1) (nodes := nodes1) (s' := s2) (nodes' := nodes2) (names := names2) (e := e0) as [Hk2 Hr2]; auto.
    { intros st n d ty _ Hn HP. eapply slice_right; [| |exact HP].
      - apply Hsub; [exact Hn|]. destruct HP as (l & HP & _). unfold wanted_slice in HP. destruct (String.eqb_spec (ntype n) "Slice") as [->|]; [discriminate|discriminate].
      - intros m Hmn Tm. apply Hsub; [exact Hmn|]. rewrite Tm. discriminate. }
    { apply (knows_start sem s1 nodes1 e0 ef); assumption. }
    rewrite update_run. split; [apply Hr2; intros id d Hd; exact Hd|]. split; [apply Hk2|]. split.
    - apply update_linked; [eapply repl_linked0; eassumption|]. intros x id Hx Hid.
      destruct (repl_const_map _ _ _ _ _ _ E2 _ _ Hid) as [(_ & K)|(K & Hid1)]; [exact K|].
      apply in_app_iff in Hx. destruct Hx as [Hx|Hx]; [|contradiction].
      destruct (repl_const_map _ _ _ _ _ _ E1 _ _ Hid1) as [(_ & nm & ty & Hin)|(K' & _)]; [|contradiction].
      exists nm, ty. eapply repl_keeps_constants; [exact E2|exact Hin|reflexivity].
    - rewrite map_map. apply map_ext. intros a. unfold to_constant. destruct (asrc a); try reflexivity. destruct (mem_str _ _); reflexivity.
  Qed.
End ShapePass.

(** * No panic *)
Lemma mapev_no_panic {A B} (f : A -> ev B) : forall l, (forall a, In a l -> f a <> Panic) -> mapev f l <> Panic.
Proof.
  induction l as [|x l IH]; intros H; cbn; [discriminate|].
  pose proof (H x (or_introl eq_refl)) as Hx. destruct (f x); cbn; [discriminate|contradiction|].
  assert (Hl : mapev f l <> Panic) by (apply IH; intros; apply H; right; assumption).
  destruct (mapev f l); cbn; [discriminate|contradiction|discriminate].
Qed.

Lemma apply_no_panic {A B C D} (f : B -> B -> ev C) (g : A -> B) (op : A -> A -> D -> Prop) (x y : tensor A) (r : tensor D) :
  (forall a b c, op a b c -> f (g a) (g b) <> Panic) -> twf x -> twf y -> lifted op x y r ->
  tdata x <> [] -> tdata y <> [] -> length (tdata r) = Nat.max (length (tdata x)) (length (tdata y)) ->
  apply_binary f (map g (tdata x)) (map g (tdata y)) <> Panic.
Proof.
  intros Hop Hx Hy (Hr & Hs & Hel) Nx Ny Hlen. unfold apply_binary. rewrite !map_length.
  destruct (negb (Nat.eqb (length (tdata x)) (length (tdata y))) && negb (Nat.eqb (length (tdata x)) 1) && negb (Nat.eqb (length (tdata y)) 1)) eqn:E; [discriminate|].
  assert (Px : (0 < length (tdata x))%nat) by (destruct (tdata x); [contradiction|cbn; lia]).
  assert (Py : (0 < length (tdata y))%nat) by (destruct (tdata y); [contradiction|cbn; lia]).
  destruct (bshape_bto _ _ _ Hs) as [Bx By].
  apply mapev_no_panic. intros k Hk. apply in_seq in Hk.
  destruct (nth_error (indices (tshape r)) k) as [idx|] eqn:Ei.
  2:{ apply nth_error_None in Ei. rewrite indices_length in Ei. unfold twf in Hr. lia. }
  assert (Hv : valid_idx (tshape r) idx) by (apply indices_In; eapply nth_error_In; exact Ei).
  assert (Ho : N.to_nat (offset (tshape r) idx) = k).
  { pose proof (indices_offset _ _ Hv) as Hi. pose proof (indices_NoDup (tshape r)) as Hd.
    rewrite NoDup_nth_error in Hd. apply Hd; [apply nth_error_Some; congruence|congruence]. }
  destruct (Hel _ Hv) as (a & b & c & Ga & Gb & Gc & Hc).
  rewrite (flat_read x _ _ Hx Bx Hv) in Ga.
  2:{ unfold twf in Hr. destruct (Nat.eqb_spec (length (tdata x)) 1); [right; assumption|left; lia]. }
  rewrite (flat_read y _ _ Hy By Hv) in Gb.
  2:{ unfold twf in Hr. destruct (Nat.eqb_spec (length (tdata y)) 1); [right; assumption|left; lia]. }
  rewrite Ho in Ga, Gb. unfold broadcast_get in *. rewrite !map_length.
  assert (Ka : (if Nat.eqb (length (tdata x)) 1 then nth_error (map g (tdata x)) 0 else nth_error (map g (tdata x)) k) = Some (g a)).
  { destruct (Nat.eqb (length (tdata x)) 1); rewrite nth_error_map, Ga; reflexivity. }
  assert (Kb : (if Nat.eqb (length (tdata y)) 1 then nth_error (map g (tdata y)) 0 else nth_error (map g (tdata y)) k) = Some (g b)).
  { destruct (Nat.eqb (length (tdata y)) 1); rewrite nth_error_map, Gb; reflexivity. }
  rewrite Ka, Kb. eapply Hop; exact Hc.
Qed.

Lemma op_i64_no_panic op a b c : zop op a b c -> in64 c -> op_i64 op a b <> Panic.
Proof.
  unfold op_i64, checked, in64, min64, max64. destruct op; cbn [zop]; try (destruct (_ && _)%bool; discriminate).
  intros [Hb ->] Hc. destruct (Z.eqb_spec b 0); [discriminate|].
  destruct ((a =? -9223372036854775808) && (b =? -1))%Z%bool eqn:E; [|discriminate].
  assert (a = -9223372036854775808 /\ b = -1)%Z as [-> ->] by lia. exfalso. vm_compute in Hc. destruct Hc as [_ Hc]. apply Hc. reflexivity.
Qed.
Lemma op_f64_no_panic op a b : op_f64 op a b <> Panic.
Proof. destruct op; cbn; try discriminate. destruct (is_zero b); discriminate. Qed.

Lemma nil_len {A} (l : list A) : length l <> 0%nat -> l <> [].
Proof. destruct l; cbn; congruence. Qed.

Lemma binary_no_panic value n op o os x y r :
  noutputs n = o :: os -> input_value value n 0 = Done x -> input_value value n 1 = Done y -> fd_wf x -> fd_wf y ->
  arith (zop op) (op32 op) (op64 op) x y r -> fd_shape r = output_shape (aty o) ->
  vals_len (fd_vals x) <> 0%nat -> vals_len (fd_vals y) <> 0%nat ->
  vals_len (fd_vals r) = Nat.max (vals_len (fd_vals x)) (vals_len (fd_vals y)) ->
  eval_binary value n op <> Panic.
Proof.
  intros Ho Hx Hy Wx Wy Ha Hs Nx Ny Hlen. unfold eval_binary. destruct (Nat.ltb _ _); [discriminate|]. rewrite Hx, Hy. cbn [ebind].
  unfold first_out. rewrite Ho. cbn [ebind]. rewrite <- Hs. unfold arith in Ha.
  assert (i32_64 : forall z, in32 z -> in64 z) by (unfold in32, in64, min32, max32, min64, max64; intros; lia).
  assert (G : forall C (res : ev (list C)) (wrap : list C -> fvals), (forall l, vals_len (wrap l) = length l) ->
    res <> Panic -> (forall l, res = Done l -> length l = vals_len (fd_vals r)) -> N.of_nat (vals_len (fd_vals r)) = prodN (fd_shape r) ->
    ebind (emap wrap res) (fun v => ebind (tensor_new (fd_shape r) v) (fun d => Done (d, aty o))) <> Panic).
  { intros C res wrap Hw Hp Hl Hw2. destruct res as [| |l]; cbn; [discriminate|contradiction|].
    unfold tensor_new. rewrite Hw, prod_shape_eq. destruct (N.eqb_spec (N.of_nat (length l)) (prodN (fd_shape r))) as [|K]; [discriminate|].
    exfalso. apply K. rewrite (Hl l eq_refl). exact Hw2. }
  assert (Hl : forall A B (f : A -> A -> ev B) p q l, length p = vals_len (fd_vals x) -> length q = vals_len (fd_vals y) -> apply_binary f p q = Done l -> length l = vals_len (fd_vals r)).
  { intros A B f p q l Hp Hq K. apply apply_ok in K. destruct K as [K _]. rewrite K, Hp, Hq. symmetry. exact Hlen. }
  unfold fd_dtype. unfold fd_wf in Wx, Wy.
  destruct (fd_vals x) as [a|a|a|a|] eqn:Vx; destruct (fd_vals y) as [b|b|b|b|] eqn:Vy; try contradiction;
    destruct (fd_vals r) as [c|c|c|c|] eqn:Vr; try contradiction;
    unfold to_i64_vec, to_f64_vec; rewrite Vx, Vy; cbn [try ebind]; cbn [vals_len] in *; pose proof Ha as (Hr & _ & _); unfold twf in Hr; cbn in Hr;
    destruct Wx as [Wx _]; destruct Wy as [Wy _];
    assert (Tx : twf (mkT (fd_shape x) a)) by (unfold twf; cbn; lia); assert (Ty : twf (mkT (fd_shape y) b)) by (unfold twf; cbn; lia).
  - apply G; [reflexivity| | |lia].
    + pose proof (@apply_no_panic Z Z Z Z (op_i64 op) (fun z => z) _ _ _ _ (fun p q s K => op_i64_no_panic op p q s (proj1 K) (proj2 K)) Tx Ty Ha
        (nil_len _ Nx) (nil_len _ Ny) Hlen) as K. cbn [tdata] in K. rewrite !map_id in K. exact K.
    + intros l. apply Hl; reflexivity.
  - apply G; [intros l; cbn; apply map_length| | |lia].
    + pose proof (@apply_no_panic Z Z Z Z (op_i64 op) (fun z => z) _ _ _ _ (fun p q s K => op_i64_no_panic op p q s (proj1 K) (i32_64 _ (proj2 K))) Tx Ty Ha
        (nil_len _ Nx) (nil_len _ Ny) Hlen) as K. cbn [tdata] in K. rewrite !map_id in K. exact K.
    + intros l. apply Hl; reflexivity.
  - apply G; [intros l; cbn; apply map_length| | |lia].
    + exact (@apply_no_panic f32 f64 f64 f32 (op_f64 op) as_f64 _ _ _ _ (fun p q s _ => op_f64_no_panic op _ _) Tx Ty Ha
        (nil_len _ Nx) (nil_len _ Ny) Hlen).
    + intros l. apply Hl; apply map_length.
  - apply G; [reflexivity| | |lia].
    + pose proof (@apply_no_panic f64 f64 f64 f64 (op_f64 op) (fun z => z) _ _ _ _ (fun p q s _ => op_f64_no_panic op _ _) Tx Ty Ha
        (nil_len _ Nx) (nil_len _ Ny) Hlen) as K. cbn [tdata] in K. rewrite !map_id in K. exact K.
    + intros l. apply Hl; reflexivity.
Qed.

Lemma arithmetic_eval value n a b o os x y r :
  arithmetic (ntype n) x y r -> ninputs n = [a; b] -> noutputs n = o :: os -> value a = Some x -> value b = Some y ->
  fd_wf x -> fd_wf y -> exact_type (aty o) r ->
  vals_len (fd_vals x) <> 0%nat -> vals_len (fd_vals y) <> 0%nat ->
  vals_len (fd_vals r) = Nat.max (vals_len (fd_vals x)) (vals_len (fd_vals y)) ->
  try_evaluate value n = Skip \/ try_evaluate value n = Done (r, aty o).
Proof.
  intros Ht Hi Ho Ha Hb Wx Wy Hty Nx Ny Hlen. destruct (exact_shape _ _ Hty) as [Ts _]. symmetry in Ts.
  assert (I0 : input_value value n 0 = Done x) by (unfold input_value; rewrite Hi; cbn; rewrite Ha; reflexivity).
  assert (I1 : input_value value n 1 = Done y) by (unfold input_value; rewrite Hi; cbn; rewrite Hb; reflexivity).
  assert (G : forall op, arith (zop op) (op32 op) (op64 op) x y r -> eval_binary value n op = Skip \/ eval_binary value n op = Done (r, aty o)).
  { intros op Har. pose proof (binary_no_panic _ _ _ _ _ _ _ _ Ho I0 I1 Wx Wy Har Ts Nx Ny Hlen) as Hp.
    destruct (eval_binary value n op) as [| |[d ty]] eqn:E; [left; reflexivity|contradiction|right].
    assert (ty = aty o).
    { unfold eval_binary in E. destruct (Nat.ltb _ _); [discriminate|]. rewrite I0, I1 in E. cbn [ebind] in E. unfold first_out in E. rewrite Ho in E. ev_inv E. congruence. }
    subst ty. rewrite (binary_ok _ _ _ _ _ _ _ _ E I0 I1 Wx Wy Har Ts). reflexivity. }
  unfold try_evaluate. destruct Ht as [[-> H]|[[-> H]|[[-> H]|[-> H]]]]; cbn; apply G; exact H.
Qed.

(** * Correct rounding *)
Lemma rounded_of v s r :
  (if Rlt_bool (Rabs (near32 v)) (bpow radix2 128) then B2R r = near32 v /\ is_finite r = true else B2SF r = binary_overflow 24 128 mode_NE s) ->
  (v <> 0 -> s = Rlt_bool v 0)%R -> rounded32 v r.
Proof.
  intros H Hs. unfold rounded32. destruct (Rlt_bool_spec (Rabs (near32 v)) (bpow radix2 128)) as [K|K].
  - split; [intros _|intros K2; exfalso; apply (Rlt_irrefl (bpow radix2 128)); eapply Rle_lt_trans; eassumption].
    destruct H as [H1 H2]. split; [exact H2|exact H1].
  - split; [intros K2; exfalso; apply (Rlt_irrefl (bpow radix2 128)); eapply Rle_lt_trans; eassumption|intros _].
    apply B2SF_inj. rewrite H. rewrite Hs; [reflexivity|].
    intros E. unfold near32 in K. rewrite E, round_0 in K by auto with typeclass_instances. rewrite Rabs_R0 in K.
    pose proof (bpow_gt_0 radix2 128). apply (Rlt_irrefl 0). eapply Rlt_le_trans; eassumption.
Qed.

Lemma add_rounded (a b : f32) : is_finite a = true -> is_finite b = true -> rounded32 (B2R a + B2R b) (add32 a b).
Proof.
  intros Fa Fb. pose proof (Bplus_correct 24 128 _ _ mode_NE a b Fa Fb) as H. pose proof (sign_R a Fa) as Sa. pose proof (sign_R b Fb) as Sb.
  fold (near32 (B2R a + B2R b)) in H. fold (add32 a b) in H.
  apply (rounded_of _ (Rlt_bool (B2R a + B2R b) 0)); [|reflexivity].
  change (SpecFloat.fexp 24 128) with (FLT_exp (-149) 24) in H. cbn [round_mode] in H. fold (near32 (B2R a + B2R b)) in H.
  destruct (Rlt_bool_spec (Rabs (near32 (B2R a + B2R b))) (bpow radix2 128)) as [K|K]; [split; apply H|].
  destruct H as [H E]. rewrite H. f_equal. rewrite <- E in Sb. 
  assert (N0 : (B2R a + B2R b <> 0)%R).
  { intros Z. unfold near32 in K. rewrite Z, round_0 in K by auto with typeclass_instances. rewrite Rabs_R0 in K.
    pose proof (bpow_gt_0 radix2 128). lra. }
  destruct (Bsign a); [rewrite Rlt_bool_true; [reflexivity|lra]|rewrite Rlt_bool_false; [reflexivity|lra]].
Qed.
Lemma sub_rounded (a b : f32) : is_finite a = true -> is_finite b = true -> rounded32 (B2R a - B2R b) (sub32 a b).
Proof.
  intros Fa Fb. pose proof (Bminus_correct 24 128 _ _ mode_NE a b Fa Fb) as H. pose proof (sign_R a Fa) as Sa. pose proof (sign_R b Fb) as Sb.
  apply (rounded_of _ (Rlt_bool (B2R a - B2R b) 0)); [|reflexivity].
  change (SpecFloat.fexp 24 128) with (FLT_exp (-149) 24) in H. cbn [round_mode] in H. fold (near32 (B2R a - B2R b)) in H. fold (sub32 a b) in H.
  destruct (Rlt_bool_spec (Rabs (near32 (B2R a - B2R b))) (bpow radix2 128)) as [K|K]; [split; apply H|].
  destruct H as [H E]. rewrite H. f_equal. 
  assert (N0 : (B2R a - B2R b <> 0)%R).
  { intros Z. unfold near32 in K. rewrite Z, round_0 in K by auto with typeclass_instances. rewrite Rabs_R0 in K.
    pose proof (bpow_gt_0 radix2 128). lra. }
  destruct (Bsign a), (Bsign b); cbn in E; try discriminate; [rewrite Rlt_bool_true; [reflexivity|lra]|rewrite Rlt_bool_false; [reflexivity|lra]].
Qed.
Lemma mul_rounded (a b : f32) : is_finite a = true -> is_finite b = true -> rounded32 (B2R a * B2R b) (mul32 a b).
Proof.
  intros Fa Fb. pose proof (Bmult_correct 24 128 _ _ mode_NE a b) as H. pose proof (sign_R a Fa) as Sa. pose proof (sign_R b Fb) as Sb.
  apply (rounded_of _ (xorb (Bsign a) (Bsign b))).
  - change (SpecFloat.fexp 24 128) with (FLT_exp (-149) 24) in H. cbn [round_mode] in H. fold (near32 (B2R a * B2R b)) in H. fold (mul32 a b) in H.
    rewrite Fa, Fb in H. destruct (Rlt_bool (Rabs (near32 (B2R a * B2R b))) (bpow radix2 128)); [|exact H]. split; apply H.
  - intros N0. destruct (Bsign a), (Bsign b); cbn; symmetry; try (apply Rlt_bool_false; nra); apply Rlt_bool_true; nra.
Qed.
Lemma div_rounded (a b : f32) : is_finite a = true -> is_finite b = true -> B2R b <> 0%R -> rounded32 (B2R a / B2R b) (div32 a b).
Proof.
  intros Fa Fb Nb. pose proof (Bdiv_correct 24 128 _ _ mode_NE a b Nb) as H. pose proof (sign_R a Fa) as Sa. pose proof (sign_R b Fb) as Sb.
  apply (rounded_of _ (xorb (Bsign a) (Bsign b))).
  - change (SpecFloat.fexp 24 128) with (FLT_exp (-149) 24) in H. cbn [round_mode] in H. fold (near32 (B2R a / B2R b)) in H. fold (div32 a b) in H.
    rewrite Fa in H. destruct (Rlt_bool (Rabs (near32 (B2R a / B2R b))) (bpow radix2 128)); [|exact H]. split; apply H.
  - intros N0. unfold Rdiv in *.
    destruct (Bsign b) eqn:Eb.
    + assert (Hi : (/ B2R b < 0)%R) by (apply Rinv_lt_0_compat; lra).
      destruct (Bsign a); cbn; symmetry; [apply Rlt_bool_false; nra|apply Rlt_bool_true; nra].
    + assert (Hi : (0 < / B2R b)%R) by (apply Rinv_0_lt_compat; lra).
      destruct (Bsign a); cbn; symmetry; [apply Rlt_bool_true; nra|apply Rlt_bool_false; nra].
Qed.
Lemma sqrt_rounded (a : f32) : is_finite a = true -> (0 <= B2R a)%R -> nearest32 (sqrt (B2R a)) (sqrt32 a).
Proof.
  intros Fa Ha. pose proof (Bsqrt_correct 24 128 _ _ mode_NE a) as (H1 & H2 & _). split; [|exact H1].
  fold (sqrt32 a) in H2. rewrite H2. destruct a as [s|s| |s m e E]; try discriminate; [reflexivity|].
  destruct s; [|reflexivity]. exfalso. cbn in Ha. assert ((F2R (Float radix2 (Z.neg m) e) < 0)%R) by (apply F2R_lt_0; reflexivity). cbn in *. lra.
Qed.

(** Conversions from integers. *)
Lemma of_Z_near32 z : in64 z -> nearest32 (IZR z) (f32_of_Z z).
Proof.
  intros Hz. pose proof (binary_normalize_correct 24 128 _ _ mode_NE z 0 false) as H. cbv zeta in H. fold (f32_of_Z z) in H.
  change (SpecFloat.fexp 24 128) with (FLT_exp (-149) 24) in H. cbn [round_mode] in H.
  assert (E : F2R (Float radix2 z 0) = IZR z) by (unfold F2R; cbn; ring). rewrite E in H.
  rewrite Rlt_bool_true in H; [split; apply H|].
  apply Rle_lt_trans with (bpow radix2 63); [|apply bpow_lt; reflexivity].
  apply abs_round_le_generic; [apply FLT_exp_valid; reflexivity|apply valid_rnd_N| |].
  - apply generic_format_bpow. cbn. lia.
  - rewrite <- abs_IZR. change (bpow radix2 63) with (IZR 9223372036854775808). apply IZR_le. unfold in64, min64, max64 in Hz. lia.
Qed.
Lemma of_Z_near64 z : in64 z -> nearest64 (IZR z) (f64_of_Z z).
Proof.
  intros Hz. pose proof (binary_normalize_correct 53 1024 _ _ mode_NE z 0 false) as H. cbv zeta in H. fold (f64_of_Z z) in H.
  change (SpecFloat.fexp 53 1024) with (FLT_exp (-1074) 53) in H. cbn [round_mode] in H.
  assert (E : F2R (Float radix2 z 0) = IZR z) by (unfold F2R; cbn; ring). rewrite E in H.
  rewrite Rlt_bool_true in H; [split; apply H|].
  apply Rle_lt_trans with (bpow radix2 63); [|apply bpow_lt; reflexivity].
  apply abs_round_le_generic; [apply FLT_exp_valid; reflexivity|apply valid_rnd_N| |].
  - apply generic_format_bpow. cbn. lia.
  - rewrite <- abs_IZR. change (bpow radix2 63) with (IZR 9223372036854775808). apply IZR_le. unfold in64, min64, max64 in Hz. lia.
Qed.
Lemma as_f32_near (x : f64) : is_finite x = true -> rounded32 (B2R x) (as_f32 x).
Proof.
  intros F. pose proof (as_f32_correct x F) as H. pose proof (sign_R x F) as S.
  apply (rounded_of _ (Bsign x)).
  - unfold near32. change (round radix2 (FLT_exp (-149) 24) ZnearestE (B2R x)) with (r32 (B2R x)).
    destruct (Rlt_bool _ _); [split; apply H|exact H].
  - intros N0. destruct (Bsign x); symmetry; [apply Rlt_bool_true; lra|apply Rlt_bool_false; lra].
Qed.

Lemma to_int_all : forall lo hi (x : f64), (lo <= 0 <= hi)%Z ->
  (is_finite x = true -> f64_to_int lo hi x = Z.max lo (Z.min hi (Ztrunc (B2R x)))) /\
  f64_to_int lo hi (B754_infinity true) = lo /\ f64_to_int lo hi (B754_infinity false) = hi /\ f64_to_int lo hi B754_nan = 0%Z.
Proof.
  intros lo hi x _. split; [|repeat split]. intros F. rewrite <- (btrunc_ok x F).
  destruct x; try discriminate; reflexivity.
Qed.

Lemma cast_node_ok : forall value n i o x d ty, ninputs n = [i] -> noutputs n = [o] -> value i = Some x ->
  ntype n = "Cast"%string -> try_evaluate value n = Done (d, ty) ->
  ty = aty o /\
  match fd_vals x, fd_vals d with
  | XF32 l, XI64 r => r = map (fun v => f64_to_int min64 max64 (as_f64 v)) l
  | XF64 l, XI64 r => r = map (f64_to_int min64 max64) l
  | XF32 l, XI32 r => r = map (fun v => f64_to_int min32 max32 (as_f64 v)) l
  | XF64 l, XI32 r => r = map (f64_to_int min32 max32) l
  | XI64 l, XF32 r | XI32 l, XF32 r => r = map f32_of_Z l
  | XI64 l, XF64 r | XI32 l, XF64 r => r = map f64_of_Z l
  | XF64 l, XF32 r => r = map as_f32 l
  | XF32 l, XF64 r => r = map as_f64 l
  | a, b => a = b
  end.
Proof.
  intros value n i o x d ty Hi Ho Hv Ht H. unfold try_evaluate in H. rewrite Ht in H. cbn in H.
  unfold eval_cast, input_value in H. rewrite Hi in H. cbn in H. rewrite Hv in H. cbn in H.
  unfold first_out in H. rewrite Ho in H. cbn in H.
  destruct (dtype_beq _ _).
  - injection H as <- <-. split; [reflexivity|]. destruct (fd_vals x) eqn:E; reflexivity.
  - destruct (fd_vals x) as [l|l|l|l|t l] eqn:Ex; destruct (target_dtype (aty o)); cbn in H; try discriminate;
      unfold tensor_new in H; destruct (_ =? _)%N in H; cbn in H; try discriminate; injection H as <- <-; split; reflexivity.
Qed.
