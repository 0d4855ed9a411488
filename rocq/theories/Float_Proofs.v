(** Computing in double precision and rounding to single precision is exact
    single precision arithmetic. *)
From Coq Require Import ZArith Reals Lia Lra Psatz.
From Flocq Require Import Core BinarySingleNaN Double_rounding.
From Verif Require Import Float_Model.
Local Open Scope R_scope.

Notation r32 := (round radix2 (SpecFloat.fexp 24 128) (round_mode mode_NE)).
Notation r64 := (round radix2 (SpecFloat.fexp 53 1024) (round_mode mode_NE)).

Lemma fexp32 : SpecFloat.fexp 24 128 = FLT_exp (-149) 24. Proof. reflexivity. Qed.
Lemma fexp64 : SpecFloat.fexp 53 1024 = FLT_exp (-1074) 53. Proof. reflexivity. Qed.

Lemma format32 (x : f32) : generic_format radix2 (FLT_exp (-149) 24) (B2R x).
Proof. apply (generic_format_B2R 24 128 x). Qed.
Lemma flt32 (x : f32) : FLT_format radix2 (-149) 24 (B2R x).
Proof. apply FLT_format_generic; [reflexivity|apply format32]. Qed.
Lemma format32_64 x : generic_format radix2 (FLT_exp (-149) 24) x -> generic_format radix2 (FLT_exp (-1074) 53) x.
Proof.
  apply generic_inclusion_mag. intros _. unfold FLT_exp. lia.
Qed.

(** Conversions. *)
Lemma as_f64_correct (x : f32) : is_finite x = true ->
  B2R (as_f64 x) = B2R x /\ is_finite (as_f64 x) = true /\ Bsign (as_f64 x) = Bsign x.
Proof.
  destruct x as [s|s| |s m e H] eqn:Ex; try discriminate; intros _; [cbn; auto|].
  assert (F : generic_format radix2 (FLT_exp (-1074) 53) (B2R x)) by (apply format32_64, format32).
  assert (B : Rabs (B2R x) < bpow radix2 128) by (apply abs_B2R_lt_emax).
  rewrite Ex in F, B. cbn [B2R] in F, B.
  cbn [as_f64 B2R Bsign]. pose proof (binary_normalize_correct 53 1024 _ _ mode_NE (cond_Zopp s (Zpos m)) e s) as C. cbv zeta in C.
  rewrite (round_generic radix2 (SpecFloat.fexp 53 1024) (round_mode mode_NE) _ F) in C. rewrite Rlt_bool_true in C.
  - destruct C as [C1 [C2 C3]]. split; [exact C1|]. split; [exact C2|]. rewrite C3. destruct s.
    + rewrite Rcompare_Lt; [reflexivity|]. apply F2R_lt_0. reflexivity.
    + rewrite Rcompare_Gt; [reflexivity|]. apply F2R_gt_0. reflexivity.
  - eapply Rlt_trans; [exact B|]. apply bpow_lt. reflexivity.
Qed.

Lemma as_f32_correct (x : f64) : is_finite x = true ->
  if Rlt_bool (Rabs (r32 (B2R x))) (bpow radix2 128) then
    B2R (as_f32 x) = r32 (B2R x) /\ is_finite (as_f32 x) = true /\ Bsign (as_f32 x) = Bsign x
  else B2SF (as_f32 x) = binary_overflow 24 128 mode_NE (Bsign x).
Proof.
  destruct x as [s|s| |s m e H] eqn:Ex; try discriminate; intros _.
  - cbn [B2R]. rewrite round_0 by auto with typeclass_instances. rewrite Rabs_R0, Rlt_bool_true by (apply bpow_gt_0). cbn. auto.
  - cbn [as_f32 B2R Bsign]. pose proof (binary_normalize_correct 24 128 _ _ mode_NE (cond_Zopp s (Zpos m)) e s) as C. cbv zeta in C.
    destruct (Rlt_bool _ _) in C |- *.
    + destruct C as [C1 [C2 C3]]. split; [exact C1|]. split; [exact C2|]. rewrite C3. destruct s.
      * rewrite Rcompare_Lt; [reflexivity|]. apply F2R_lt_0. reflexivity.
      * rewrite Rcompare_Gt; [reflexivity|]. apply F2R_gt_0. reflexivity.
    + rewrite C. f_equal. destruct s.
      * apply Rlt_bool_true. apply F2R_lt_0. reflexivity.
      * apply Rlt_bool_false. apply F2R_ge_0. discriminate.
Qed.

(** The exact result [v], rounded to double and then to single precision,
    against a single precision result rounded once. *)
Lemma double_rounding (v : R) (s : bool) (d : f64) (r : f32) :
  r32 (r64 v) = r32 v -> is_finite d = true -> B2R d = r64 v -> Bsign d = s ->
  (if Rlt_bool (Rabs (r32 v)) (bpow radix2 128) then B2R r = r32 v /\ is_finite r = true /\ Bsign r = s
   else B2SF r = binary_overflow 24 128 mode_NE s) ->
  as_f32 d = r.
Proof.
  intros Hd Hf Hv Hs Hr. pose proof (as_f32_correct d Hf) as C. rewrite Hv, Hd in C.
  destruct (Rlt_bool _ _) in C, Hr.
  - destruct C as [C1 [C2 C3]]. destruct Hr as [R1 [R2 R3]]. apply B2R_Bsign_inj; try assumption; congruence.
  - apply B2SF_inj. rewrite C, Hr, Hs. reflexivity.
Qed.

Lemma round64_lt v k : Rabs v <= bpow radix2 k -> (k < 1024)%Z -> (-1074 <= k)%Z -> Rabs (r64 v) < bpow radix2 1024.
Proof.
  intros Hv Hk Hk'. apply Rle_lt_trans with (bpow radix2 k); [|apply bpow_lt; exact Hk].
  apply abs_round_le_generic; [apply (fexp_correct 53 1024); reflexivity|apply valid_rnd_round_mode| |exact Hv]. apply generic_format_bpow. rewrite fexp64. unfold FLT_exp. lia.
Qed.

Lemma bound32 (x : f32) : Rabs (B2R x) < bpow radix2 128.
Proof. apply abs_B2R_lt_emax. Qed.

Definition tie (x : Z) : bool := negb (Z.even x).
Lemma rr_plus (a b : f32) : r32 (r64 (B2R a + B2R b)) = r32 (B2R a + B2R b).
Proof. apply (@round_round_plus_FLT radix2 (-149) 24 (-1074) 53 prec24 prec53 tie tie); [lia|lia|apply flt32|apply flt32]. Qed.
Lemma rr_minus (a b : f32) : r32 (r64 (B2R a - B2R b)) = r32 (B2R a - B2R b).
Proof. apply (@round_round_minus_FLT radix2 (-149) 24 (-1074) 53 prec24 prec53 tie tie); [lia|lia|apply flt32|apply flt32]. Qed.
Lemma rr_mult (a b : f32) : r32 (r64 (B2R a * B2R b)) = r32 (B2R a * B2R b).
Proof. apply (@round_round_mult_FLT radix2 (round_mode mode_NE) _ (-149) 24 (-1074) 53); [lia|lia|apply flt32|apply flt32]. Qed.
Lemma rr_div (a b : f32) : B2R b <> 0 -> r32 (r64 (B2R a / B2R b)) = r32 (B2R a / B2R b).
Proof. intros Hb. apply (@round_round_div_FLT radix2 (-149) 24 (-1074) 53 prec24 prec53 tie tie (ex_intro _ 1%Z eq_refl)); [lia|lia|exact Hb|apply flt32|apply flt32]. Qed.
Lemma rr_sqrt (a : f32) : r32 (r64 (sqrt (B2R a))) = r32 (sqrt (B2R a)).
Proof. apply (@round_round_sqrt_FLT radix2 (-149) 24 (-1074) 53 prec24 prec53 tie tie); [lia|left; lia|lia|apply flt32]. Qed.

Lemma finite_or {p e} (x : binary_float p e) : is_finite x = true \/ x = B754_nan \/ exists s, x = B754_infinity s.
Proof. destruct x; eauto. Qed.

Lemma finite_not_nan {p e} (x : binary_float p e) : is_finite x = true -> is_nan x = false.
Proof. destruct x; try discriminate; reflexivity. Qed.

Lemma bpow_129 : bpow radix2 128 + bpow radix2 128 = bpow radix2 129.
Proof. change (129)%Z with (1 + 128)%Z. rewrite (bpow_plus radix2 1 128). change (bpow radix2 1) with 2. ring. Qed.

Lemma sign_R {p e} (x : binary_float p e) : is_finite x = true -> if Bsign x then B2R x <= 0 else 0 <= B2R x.
Proof.
  destruct x as [s|s| |s m ex H]; try discriminate; intros _; cbn; [destruct s; lra|]. destruct s.
  - apply Rlt_le, F2R_lt_0. reflexivity.
  - apply Rlt_le, F2R_gt_0. reflexivity.
Qed.
Lemma overflow_nonzero v : Rlt_bool (Rabs (r32 v)) (bpow radix2 128) = false -> v <> 0.
Proof.
  intros H E. rewrite E, round_0 in H by apply valid_rnd_round_mode. rewrite Rabs_R0, Rlt_bool_true in H by apply bpow_gt_0. discriminate.
Qed.
Lemma round64_sign_zero v : v <> 0 -> Rcompare v 0 <> Eq.
Proof. intros H. destruct (Rcompare_spec v 0); congruence. Qed.

Ltac special x F :=
  let G := fresh in
  destruct (as_f64_correct x F) as [_ [G _]]; revert G; generalize (as_f64 x);
  let y := fresh in intros y G; destruct y; try discriminate G; destruct x; try discriminate F; reflexivity.

Lemma add_ok (a b : f32) : as_f32 (add64 (as_f64 a) (as_f64 b)) = add32 a b.
Proof.
  destruct (finite_or a) as [Fa|[->|[s ->]]]; destruct (finite_or b) as [Fb|[->|[s' ->]]];
    try reflexivity; try special a Fa; try special b Fb; [|destruct s, s'; reflexivity].
  destruct (as_f64_correct a Fa) as [A1 [A2 A3]]. destruct (as_f64_correct b Fb) as [B1 [B2 B3]].
  pose proof (Bplus_correct 53 1024 _ _ mode_NE (as_f64 a) (as_f64 b) A2 B2) as P. rewrite A1, B1, A3, B3 in P.
  rewrite Rlt_bool_true in P.
  2:{ apply (round64_lt _ 129); [|lia|lia]. rewrite <- bpow_129. pose proof (bound32 a). pose proof (bound32 b).
      pose proof (Rabs_triang (B2R a) (B2R b)). lra. }
  destruct P as [P1 [P2 P3]]. unfold add64, add32.
  apply (double_rounding (B2R a + B2R b) _ _ _ (rr_plus a b) P2 P1 eq_refl).
  pose proof (Bplus_correct 24 128 _ _ mode_NE a b Fa Fb) as Q. destruct (Rlt_bool _ _) eqn:E.
  - destruct Q as [Q1 [Q2 Q3]]. split; [exact Q1|]. split; [exact Q2|]. rewrite P3, Q3. reflexivity.
  - destruct Q as [Q1 Q2]. rewrite Q1. f_equal. rewrite P3. pose proof (overflow_nonzero _ E) as Hn.
    pose proof (sign_R a Fa) as Sa. pose proof (sign_R b Fb) as Sb. rewrite <- Q2 in Sb. destruct (Bsign a).
    + rewrite Rcompare_Lt by lra. reflexivity.
    + rewrite Rcompare_Gt by lra. reflexivity.
Qed.

Lemma sub_ok (a b : f32) : as_f32 (sub64 (as_f64 a) (as_f64 b)) = sub32 a b.
Proof.
  destruct (finite_or a) as [Fa|[->|[s ->]]]; destruct (finite_or b) as [Fb|[->|[s' ->]]];
    try reflexivity; try special a Fa; try special b Fb; [|destruct s, s'; reflexivity].
  destruct (as_f64_correct a Fa) as [A1 [A2 A3]]. destruct (as_f64_correct b Fb) as [B1 [B2 B3]].
  pose proof (Bminus_correct 53 1024 _ _ mode_NE (as_f64 a) (as_f64 b) A2 B2) as P. rewrite A1, B1, A3, B3 in P.
  rewrite Rlt_bool_true in P.
  2:{ apply (round64_lt _ 129); [|lia|lia]. rewrite <- bpow_129. pose proof (bound32 a). pose proof (bound32 b).
      pose proof (Rabs_triang (B2R a) (- B2R b)). rewrite Rabs_Ropp in *. unfold Rminus. lra. }
  destruct P as [P1 [P2 P3]]. unfold sub64, sub32.
  apply (double_rounding (B2R a - B2R b) _ _ _ (rr_minus a b) P2 P1 eq_refl).
  pose proof (Bminus_correct 24 128 _ _ mode_NE a b Fa Fb) as Q. destruct (Rlt_bool _ _) eqn:E.
  - destruct Q as [Q1 [Q2 Q3]]. split; [exact Q1|]. split; [exact Q2|]. rewrite P3, Q3. reflexivity.
  - destruct Q as [Q1 Q2]. rewrite Q1. f_equal. rewrite P3. pose proof (overflow_nonzero _ E) as Hn.
    pose proof (sign_R a Fa) as Sa. pose proof (sign_R b Fb) as Sb. rewrite Q2 in Sa |- *. destruct (Bsign b); cbn [negb] in *.
    + rewrite Rcompare_Gt by lra. reflexivity.
    + rewrite Rcompare_Lt by lra. reflexivity.
Qed.

Lemma as_f64_shape s m e H : exists m' e' H', as_f64 (B754_finite s m e H) = B754_finite s m' e' H'.
Proof.
  destruct (as_f64_correct (B754_finite s m e H) eq_refl) as [A1 [A2 A3]].
  destruct (as_f64 _) as [t|t| |t m' e' H']; try discriminate A2.
  - exfalso. cbn in A1. symmetry in A1. apply eq_0_F2R in A1. destruct s; discriminate.
  - cbn in A3. subst t. eauto.
Qed.

Lemma mul_ok (a b : f32) : as_f32 (mul64 (as_f64 a) (as_f64 b)) = mul32 a b.
Proof.
  assert (D : (is_finite_strict a = true /\ is_finite_strict b = true) \/ is_finite_strict a = false \/ is_finite_strict b = false).
  { destruct (is_finite_strict a), (is_finite_strict b); auto. }
  destruct D as [[Sa Sb]|D].
  2:{ destruct D as [D|D].
      - destruct a as [?|?| |s m e H]; try discriminate D; (destruct b as [?|?| |s' m' e' H']; try reflexivity;
          destruct (as_f64_shape s' m' e' H') as [? [? [? E]]]; rewrite E; reflexivity).
      - destruct b as [?|?| |s m e H]; try discriminate D; (destruct a as [?|?| |s' m' e' H']; try reflexivity;
          destruct (as_f64_shape s' m' e' H') as [? [? [? E]]]; rewrite E; reflexivity). }
  assert (Fa : is_finite a = true) by (destruct a; try discriminate Sa; reflexivity).
  assert (Fb : is_finite b = true) by (destruct b; try discriminate Sb; reflexivity).
  destruct (as_f64_correct a Fa) as [A1 [A2 A3]]. destruct (as_f64_correct b Fb) as [B1 [B2 B3]].
  pose proof (Bmult_correct 53 1024 _ _ mode_NE (as_f64 a) (as_f64 b)) as P. rewrite A1, B1, A2, B2, A3, B3 in P.
  rewrite Rlt_bool_true in P.
  2:{ apply (round64_lt _ 256); [|lia|lia]. rewrite Rabs_mult. change 256%Z with (128 + 128)%Z. rewrite bpow_plus.
      apply Rmult_le_compat; [apply Rabs_pos|apply Rabs_pos|apply Rlt_le, bound32|apply Rlt_le, bound32]. }
  destruct P as [P1 [P2 P3]]. cbn [andb] in P2. assert (Pn : is_nan (Bmult mode_NE (as_f64 a) (as_f64 b)) = false) by exact (finite_not_nan _ P2).
  specialize (P3 Pn). unfold mul64, mul32.
  apply (double_rounding (B2R a * B2R b) _ _ _ (rr_mult a b) P2 P1 P3).
  pose proof (Bmult_correct 24 128 _ _ mode_NE a b) as Q. destruct (Rlt_bool _ _) eqn:E; [|exact Q].
  destruct Q as [Q1 [Q2 Q3]]. rewrite Fa, Fb in Q2. split; [exact Q1|]. split; [exact Q2|]. apply Q3. exact (finite_not_nan _ Q2).
Qed.

Lemma div_ok (a b : f32) : is_zero b = false -> as_f32 (div64 (as_f64 a) (as_f64 b)) = div32 a b.
Proof.
  intros Hz.
  assert (D : (is_finite_strict a = true /\ is_finite_strict b = true) \/ is_finite_strict a = false \/ is_finite_strict b = false).
  { destruct (is_finite_strict a), (is_finite_strict b); auto. }
  destruct D as [[Sa Sb]|D].
  2:{ destruct D as [D|D].
      - destruct a as [?|?| |s m e H]; try discriminate D; (destruct b as [?|?| |s' m' e' H']; try reflexivity;
          destruct (as_f64_shape s' m' e' H') as [? [? [? E]]]; rewrite E; reflexivity).
      - destruct b as [?|?| |s m e H]; try discriminate D; try discriminate Hz; (destruct a as [?|?| |s' m' e' H']; try reflexivity;
          destruct (as_f64_shape s' m' e' H') as [? [? [? E]]]; rewrite E; reflexivity). }
  assert (Fa : is_finite a = true) by (destruct a; try discriminate Sa; reflexivity).
  assert (Fb : is_finite b = true) by (destruct b; try discriminate Sb; reflexivity).
  pose proof (abs_B2R_ge_emin 24 128 b Sb) as Lb. change (SpecFloat.emin 24 128) with (-149)%Z in Lb.
  assert (Nb : B2R b <> 0). { intros C. rewrite C, Rabs_R0 in Lb. pose proof (bpow_gt_0 radix2 (-149)). lra. }
  destruct (as_f64_correct a Fa) as [A1 [A2 A3]]. destruct (as_f64_correct b Fb) as [B1 [B2 B3]].
  assert (Nb' : B2R (as_f64 b) <> 0) by (rewrite B1; exact Nb).
  pose proof (Bdiv_correct 53 1024 _ _ mode_NE (as_f64 a) (as_f64 b) Nb') as P. rewrite A1, B1, A2, A3, B3 in P.
  rewrite Rlt_bool_true in P.
  2:{ apply (round64_lt _ 277); [|lia|lia]. unfold Rdiv. rewrite Rabs_mult, Rabs_inv. change 277%Z with (128 + - -149)%Z. rewrite bpow_plus, bpow_opp.
      apply Rmult_le_compat; [apply Rabs_pos|left; apply Rinv_0_lt_compat, Rabs_pos_lt; exact Nb|apply Rlt_le, bound32|].
      apply Rinv_le_contravar; [apply bpow_gt_0|exact Lb]. }
  destruct P as [P1 [P2 P3]]. assert (Pn : is_nan (Bdiv mode_NE (as_f64 a) (as_f64 b)) = false) by exact (finite_not_nan _ P2).
  specialize (P3 Pn). unfold div64, div32.
  apply (double_rounding (B2R a / B2R b) _ _ _ (rr_div a b Nb) P2 P1 P3).
  pose proof (Bdiv_correct 24 128 _ _ mode_NE a b Nb) as Q. destruct (Rlt_bool _ _) eqn:E; [|exact Q].
  destruct Q as [Q1 [Q2 Q3]]. rewrite Fa in Q2. split; [exact Q1|]. split; [exact Q2|]. apply Q3. exact (finite_not_nan _ Q2).
Qed.

Lemma sqrt_ok (a : f32) : as_f32 (sqrt64 (as_f64 a)) = sqrt32 a.
Proof.
  destruct a as [s|[|]| |[|] m e H] eqn:Ea; try reflexivity.
  { destruct (as_f64_shape true m e H) as [? [? [? E]]]. rewrite E. reflexivity. }
  assert (Fa : is_finite a = true) by (rewrite Ea; reflexivity). rewrite <- Ea.
  destruct (as_f64_correct a Fa) as [A1 [A2 A3]].
  destruct (Bsqrt_correct 53 1024 _ _ mode_NE (as_f64 a)) as [P1 [P2 P3]]. rewrite A1, A3 in *.
  assert (P2' : is_finite (Bsqrt mode_NE (as_f64 a)) = true).
  { rewrite P2, Ea. destruct (as_f64_shape false m e H) as [? [? [? E]]]. rewrite E. reflexivity. }
  destruct (Bsqrt_correct 24 128 _ _ mode_NE a) as [Q1 [Q2 Q3]].
  assert (Q2' : is_finite (Bsqrt mode_NE a) = true) by (rewrite Q2, Ea; reflexivity).
  unfold sqrt64, sqrt32. apply (double_rounding (sqrt (B2R a)) (Bsign a) _ _ (rr_sqrt a) P2' P1).
  - apply P3. destruct (Bsqrt mode_NE (as_f64 a)); try discriminate P2'; reflexivity.
  - rewrite <- Q1, Rlt_bool_true by apply abs_B2R_lt_emax. split; [reflexivity|]. split; [exact Q2'|].
    apply Q3. destruct (Bsqrt mode_NE a); try discriminate Q2'; reflexivity.
Qed.

Lemma neg_ok (a : f32) : as_f32 (neg64 (as_f64 a)) = neg32 a.
Proof.
  destruct (finite_or a) as [Fa|[->|[s ->]]]; [|reflexivity|destruct s; reflexivity].
  destruct (as_f64_correct a Fa) as [A1 [A2 A3]]. unfold neg64, neg32.
  assert (Ff : generic_format radix2 (FLT_exp (-149) 24) (- B2R a)) by (apply generic_format_opp, format32).
  assert (R64 : r64 (- B2R a) = - B2R a) by (apply round_generic; [apply valid_rnd_round_mode|apply (format32_64 _ Ff)]).
  assert (R32 : r32 (- B2R a) = - B2R a) by (apply round_generic; [apply valid_rnd_round_mode|exact Ff]).
  apply (double_rounding (- B2R a) (negb (Bsign a))).
  - rewrite R64. reflexivity.
  - rewrite is_finite_Bopp. exact A2.
  - rewrite B2R_Bopp, A1, R64. reflexivity.
  - rewrite Bsign_Bopp; [rewrite A3; reflexivity|]. destruct (as_f64 a); try discriminate A2; reflexivity.
  - rewrite R32, Rabs_Ropp, Rlt_bool_true by apply bound32. split; [apply B2R_Bopp|]. split; [rewrite is_finite_Bopp; exact Fa|].
    apply Bsign_Bopp. destruct a; try discriminate Fa; reflexivity.
Qed.

Lemma round_trip (a : f32) : as_f32 (as_f64 a) = a.
Proof.
  destruct (finite_or a) as [Fa|[->|[s ->]]]; [|reflexivity|reflexivity].
  destruct (as_f64_correct a Fa) as [A1 [A2 A3]].
  assert (R64 : r64 (B2R a) = B2R a) by (apply round_generic; [apply valid_rnd_round_mode|apply (format32_64 _ (format32 a))]).
  assert (R32 : r32 (B2R a) = B2R a) by (apply round_generic; [apply valid_rnd_round_mode|exact (format32 a)]).
  apply (double_rounding (B2R a) (Bsign a) _ _); [rewrite R64; reflexivity|exact A2|congruence|exact A3|].
  rewrite R32, Rlt_bool_true by apply bound32. auto.
Qed.

Lemma zero_64 (a : f32) : is_zero (as_f64 a) = is_zero a.
Proof.
  destruct a as [s|s| |s m e H]; try reflexivity. destruct (as_f64_shape s m e H) as [? [? [? E]]]. rewrite E. reflexivity.
Qed.
