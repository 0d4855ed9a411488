(** Proofs about the code emitted for Pow, Sum, Mean, Not and BitwiseNot. *)
From Coq Require Import SpecFloat Lia ZifyBool ZifyNat ZifyN.
From Verif Require Import Power_Model Tensor_Proofs Linear_Proofs BinOps_Proofs.
Import BinOps_Spec Power_Spec Tensor_Spec BinOps_Model.
Local Open Scope Z_scope.

(** ** Leading dimensions of length one *)
Definition pad {A} (r : nat) (t : tensor A) : tensor A := unsqueeze (r - length (tshape t)) t.
Lemma len_unsqueeze {A} k (x : tensor A) : length (tshape (unsqueeze k x)) = (k + length (tshape x))%nat.
Proof. cbn. rewrite app_length, repeat_length. reflexivity. Qed.
Lemma len_pad {A} r (x : tensor A) : (length (tshape x) <= r)%nat -> length (tshape (pad r x)) = r.
Proof. intros H. unfold pad. rewrite len_unsqueeze. lia. Qed.
Lemma pad_self {A} (t : tensor A) : pad (length (tshape t)) t = t.
Proof. unfold pad. rewrite Nat.sub_diag. apply unsqueeze_0. Qed.
Lemma unsqueeze_pad {A} a b (t : tensor A) : (length (tshape t) <= a <= b)%nat -> unsqueeze (b - a) (pad a t) = pad b t.
Proof. intros H. unfold pad. rewrite unsqueeze_unsqueeze. f_equal. lia. Qed.

Lemma brev_snoc : forall a b, length a = length b -> brev (a ++ [1%N]) (b ++ [1%N]) = option_map (fun l => l ++ [1%N]) (brev a b).
Proof.
  induction a as [|x a IH]; intros [|y b] H; try discriminate; [reflexivity|]. cbn [app brev].
  rewrite IH by (cbn in H; lia). destruct (bdim x y); [|reflexivity]. destruct (brev a b); reflexivity.
Qed.
Lemma bshape_one a b : length a = length b -> bshape (1%N :: a) (1%N :: b) = option_map (cons 1%N) (bshape a b).
Proof.
  intros H. unfold bshape. cbn [rev]. rewrite brev_snoc by (rewrite !rev_length; exact H).
  destruct (brev (rev a) (rev b)) as [l|]; [|reflexivity]. cbn. rewrite rev_app_distr. reflexivity.
Qed.
Lemma indices_one s : indices (1%N :: s) = map (cons 0%N) (indices s).
Proof. unfold indices; fold indices. cbn [upto]. change (upto 1) with [0%N]. cbn. rewrite ?app_nil_r. reflexivity. Qed.
Lemma bproj_one a idx : length idx = length a -> bproj (1%N :: a) (0%N :: idx) = 0%N :: bproj a idx.
Proof. intros H. unfold bproj. cbn [length]. rewrite H, !Nat.sub_diag. reflexivity. Qed.
Lemma get_one {A} (t : tensor A) i : get (unsqueeze 1 t) (0%N :: i) = get t i.
Proof. exact (get_unsqueeze 1 t i). Qed.
Lemma bshape_length a b s : bshape a b = Some s -> length s = Nat.max (length a) (length b).
Proof.
  unfold bshape. destruct (brev (rev a) (rev b)) as [r|] eqn:E; [|discriminate]. intros H. injection H as <-.
  rewrite rev_length, (brev_length _ _ _ E), !rev_length. reflexivity.
Qed.
Lemma broadcast2_one {A B} (f : A -> A -> option B) x y : length (tshape x) = length (tshape y) ->
  broadcast2 f (unsqueeze 1 x) (unsqueeze 1 y) = option_map (unsqueeze 1) (broadcast2 f x y).
Proof.
  intros H. unfold broadcast2. change (tshape (unsqueeze 1 x)) with (1%N :: tshape x).
  change (tshape (unsqueeze 1 y)) with (1%N :: tshape y). rewrite bshape_one by exact H.
  destruct (bshape (tshape x) (tshape y)) as [s|] eqn:E; [|reflexivity]. cbn [option_map].
  pose proof (bshape_length _ _ _ E) as L. unfold tab. rewrite indices_one, mapo_map.
  assert (M : mapo (fun i => match get (unsqueeze 1 x) (bproj (1%N :: tshape x) (0%N :: i)), get (unsqueeze 1 y) (bproj (1%N :: tshape y) (0%N :: i)) with
                             | Some a, Some b => f a b | _, _ => None end) (indices s)
            = mapo (fun i => match get x (bproj (tshape x) i), get y (bproj (tshape y) i) with Some a, Some b => f a b | _, _ => None end) (indices s)).
  { apply mapo_ext. intros i Hi. apply indices_In in Hi. apply Forall2_length in Hi.
    rewrite !bproj_one, !get_one by lia. reflexivity. }
  rewrite M. clear M. match goal with |- context [mapo ?g (indices s)] => destruct (mapo g (indices s)) end; reflexivity.
Qed.
Lemma broadcast2_both {A B} (f : A -> A -> option B) k x y : length (tshape x) = length (tshape y) ->
  broadcast2 f (unsqueeze k x) (unsqueeze k y) = option_map (unsqueeze k) (broadcast2 f x y).
Proof.
  intros H. induction k as [|k IH].
  - rewrite !unsqueeze_0. destruct (broadcast2 f x y); cbn; [rewrite unsqueeze_0|]; reflexivity.
  - change (Datatypes.S k) with (1 + k)%nat. rewrite <- !unsqueeze_unsqueeze, broadcast2_one, IH by (rewrite !len_unsqueeze; lia).
    destruct (broadcast2 f x y); cbn [option_map]; [rewrite unsqueeze_unsqueeze|]; reflexivity.
Qed.
Lemma broadcast2_pad {A B} (f : A -> A -> option B) r x y t : (length (tshape x) <= r)%nat -> (length (tshape y) <= r)%nat ->
  broadcast2 f x y = Some t -> broadcast2 f (pad r x) (pad r y) = Some (pad r t).
Proof.
  intros Hx Hy Ht. destruct (broadcast2_facts f x y t (fun _ => True)) as (_ & _ & L); auto.
  set (m := Nat.max (length (tshape x)) (length (tshape y))) in *.
  rewrite <- (unsqueeze_pad m r x), <- (unsqueeze_pad m r y) by lia.
  rewrite broadcast2_both by (rewrite !len_pad by lia; reflexivity).
  assert (E : broadcast2 f (pad m x) (pad m y) = Some t).
  { destruct (Nat.le_ge_cases (length (tshape x)) (length (tshape y))).
    - replace (pad m y) with y by (replace m with (length (tshape y)) by lia; symmetry; apply pad_self).
      unfold pad. rewrite broadcast2_unsqueeze_l by lia. exact Ht.
    - replace (pad m x) with x by (replace m with (length (tshape x)) by lia; symmetry; apply pad_self).
      unfold pad. rewrite broadcast2_unsqueeze_r by lia. exact Ht. }
  rewrite E. cbn. f_equal. rewrite <- (unsqueeze_pad m r t) by lia.
  replace (pad m t) with t by (rewrite <- L; symmetry; apply pad_self). reflexivity.
Qed.
Lemma tmapo_shape {A B} (f : A -> option B) t r : tmapo f t = Some r -> tshape r = tshape t.
Proof. unfold tmapo. destruct (mapo f (tdata t)); [|discriminate]. intros H. injection H as <-. reflexivity. Qed.
Lemma tmapo_pad {A B} (f : A -> option B) k t r : tmapo f t = Some r -> tmapo f (pad k t) = Some (pad k r).
Proof. intros H. unfold pad. rewrite tmapo_unsqueeze, H. cbn. rewrite (tmapo_shape _ _ _ H). reflexivity. Qed.

(** ** Values *)
Section Values.
  Variable (d : dtype).
  Definition inv (r : nat) (dev h : bool) (v : rv) (t : tensor elt) : Prop :=
    twf t /\ Forall (in_dtype d) (tdata t) /\
    (if dev then v = RTensor (pad r t) /\ (length (tshape t) <= r)%nat else exists x, v = RNative x /\ t = mkT [] [x]) /\
    (if h then dev = true /\ length (tshape t) = r else tshape t = []).
End Values.
Lemma stands_inv d ty v t : device ty \/ native ty -> stands_for d ty v t ->
  inv d (N.to_nat (device_rank ty)) (on_device ty) (is_tensor_ty ty) v t /\ elem_ok d ty.
Proof.
  intros Hty H. split; [|eapply stands_elem; exact H]. destruct H as (W & F & H). split; [exact W|]. split; [exact F|].
  destruct ty as [a|a|n|y], v as [t'|x|l]; try contradiction; try (destruct Hty; contradiction); cbn.
  - destruct H as (-> & S & ->). split; [|exact S]. split; [|rewrite S; cbn; lia]. unfold pad, unsqueeze. rewrite S. reflexivity.
  - destruct H as (-> & ->). split; [|reflexivity]. exists x. auto.
  - destruct H as (-> & _ & L & _). assert (L' : length (tshape t) = N.to_nat (tt_rank y)) by lia.
    rewrite <- L'. rewrite pad_self. auto.
Qed.
Lemma rank_device ty : device ty \/ native ty -> rank_of ty = device_rank ty.
Proof. destruct ty; cbn; intros []; try contradiction; reflexivity. Qed.

(** ** Inference *)
Lemma fold_max (g : argty -> N) : forall tys a,
  fold_left (fun acc ty => N.max acc (g ty)) tys a = N.max a (fold_right N.max 0%N (map g tys)).
Proof. induction tys as [|ty tys IH]; intros a; cbn; [lia|]. rewrite IH. lia. Qed.
Definition ranks (tys : list argty) : N := fold_right N.max 0%N (map device_rank tys).
Lemma compute_ranks tys : Forall (fun ty => device ty \/ native ty) tys -> compute_broadcast_rank tys = ranks tys.
Proof.
  intros H. unfold compute_broadcast_rank, ranks. rewrite <- (N.max_0_l (fold_right _ _ _)), <- fold_max.
  generalize 0%N. induction H as [|ty tys Hty _ IH]; intros a; [reflexivity|]. cbn [fold_left].
  destruct ty; cbn [device_rank]; try (destruct Hty; contradiction); rewrite ?N.max_0_r; apply IH.
Qed.
Lemma infer_list d tys : Forall (fun ty => device ty \/ native ty) tys -> broadcast_dtype tys None = Some d ->
  (existsb is_tensor_ty tys = true -> ranks tys <> 0%N) ->
  exists ty, broadcast_output_type tys None = Some ty /\
    forall v t, inv d (N.to_nat (ranks tys)) (existsb on_device tys) (existsb is_tensor_ty tys) v t -> stands_for d ty v t.
Proof.
  intros Hty Hd Nz. unfold broadcast_output_type. rewrite Hd, (compute_ranks _ Hty).
  assert (Sh : existsb is_shape_ty tys = false).
  { clear -Hty. induction Hty as [|ty tys H _ IH]; [reflexivity|]. cbn. rewrite IH. destruct ty; try reflexivity. destruct H; contradiction. }
  rewrite Sh. cbn [andb].
  assert (D0 : ranks tys = 0%N -> existsb on_device tys = true -> existsb is_tensor_ty tys = true).
  { clear. induction tys as [|ty tys IH]; cbn; [discriminate|]. unfold ranks in *. cbn. intros H.
    destruct ty; cbn in *; intros E; try lia; try (apply IH; [lia|exact E]); reflexivity. }
  assert (D1 : existsb is_tensor_ty tys = false -> (ranks tys <= 1)%N /\ (ranks tys <> 0%N -> existsb on_device tys = true)).
  { clear -Hty. unfold ranks. induction Hty as [|ty tys H _ IH]; cbn; [split; [lia|congruence]|].
    destruct ty; cbn in *; try discriminate; try (destruct H; contradiction); intros E; destruct (IH E) as [I1 I2]; split; auto; try lia;
    intros; apply I2; lia. }
  eexists. split; [reflexivity|]. intros v t (W & F & Hv & Hh). revert D0 D1 Hv Hh Nz.
  generalize (existsb on_device tys) as eo, (existsb is_tensor_ty tys) as et. intros eo et D0 D1 Hv Hh Nz.
  destruct (N.eqb_spec (ranks tys) 0) as [E0|E0].
  - destruct et; [exfalso; apply Nz; auto|].
    destruct eo; [discriminate (D0 E0 eq_refl)|].
    destruct Hv as (x & -> & ->). split; [exact W|]. split; [exact F|]. cbn. auto.
  - destruct et.
    + destruct Hh as [Hd' L]. rewrite Hd' in Hv. destruct Hv as [-> _]. cbn [negb andb]. rewrite <- L, pad_self.
      apply stands_tensor; auto. lia.
    + destruct (D1 eq_refl) as [D2 D3]. rewrite (D3 E0) in Hv. destruct Hv as [-> _].
      replace (ranks tys) with 1%N by lia. cbn [negb andb N.eqb Pos.eqb].
      unfold pad. rewrite Hh. apply stands_scalar; auto.
Qed.

(** ** Pow *)
Lemma pow_in_dtype powf powi d x y r : in_dtype d x -> pow_elt powf powi d x y = Some r -> in_dtype d r.
Proof.
  destruct x as [a|a|a], y as [b|b|b]; cbn [pow_elt]; try discriminate; intros Hx.
  - destruct (b <? 0); [discriminate|]. destruct (fits d _) eqn:F; [|discriminate]. intros H. injection H as <-. apply in_dtype_int. exact F.
  - intros H. injection H as <-. exact Hx.
  - intros H. injection H as <-. exact Hx.
Qed.
Lemma elt_signed d x : signed d = true -> in_dtype d x -> exists z, x = EI z.
Proof. destruct x as [z|b|f]; intros Hs H; [eauto| |]; destruct d; try discriminate Hs; cbn in H; try discriminate H; destruct H as [? H]; discriminate H. Qed.
Lemma elt_float d x : floating d = true -> in_dtype d x -> exists f, x = EF f.
Proof. destruct x as [z|b|f]; intros Hs H; [| |eauto]; destruct d; try discriminate Hs; cbn in H; try discriminate H; destruct H as (? & ? & H & _); discriminate H. Qed.
Lemma floating_signed d : floating d = true -> signed d = false.
Proof. destruct d; intros H; try discriminate H; reflexivity. Qed.

Lemma power_type_of d' ty : elem_ok d' ty -> device ty \/ native ty -> (floating d' = true \/ signed d' = true) ->
  power_type ty = Some (signed d').
Proof.
  intros He Hty Hd. unfold power_type. assert (E : exp_dtype ty = Some d').
  { destruct ty; cbn in *; try (destruct Hty; contradiction); try (destruct He); subst; reflexivity. }
  rewrite E. destruct (signed d') eqn:S; [reflexivity|]. destruct Hd as [-> | Hd]; [reflexivity|discriminate].
Qed.
Lemma burn_pow_ok powf powi d x y r : (floating d = true \/ signed d = true) -> in_dtype d x -> in_dtype d y ->
  pow_elt powf powi d x y = Some r -> burn_pow powf d (signed d) x y = Some r.
Proof.
  intros Hd Hx Hy H. destruct Hd as [Hd|Hd].
  - rewrite (floating_signed _ Hd). destruct (elt_float _ _ Hd Hx) as [a ->]. destruct (elt_float _ _ Hd Hy) as [b ->]. exact H.
  - rewrite Hd. destruct (elt_signed _ _ Hd Hx) as [a ->]. destruct (elt_signed _ _ Hd Hy) as [b ->]. exact H.
Qed.
Lemma burn_pow_scalar_ok powf powi d d' x y r : (floating d' = true \/ signed d' = true) ->
  d' = d \/ floating d = true /\ signed d' = true -> in_dtype d x -> in_dtype d' y ->
  pow_elt powf powi d x y = Some r -> burn_pow_scalar powf powi d (signed d') x y = Some r.
Proof.
  intros Hd Hc Hx Hy H. destruct Hc as [-> | [Hf Hs]].
  - pose proof (burn_pow_ok powf powi d x y r Hd Hx Hy H) as B. unfold burn_pow_scalar.
    destruct (signed d), x, y; try exact B; discriminate B.
  - rewrite Hs. destruct (elt_float _ _ Hf Hx) as [a ->]. destruct (elt_signed _ _ Hs Hy) as [b ->]. exact H.
Qed.
Lemma as_i32_small b : -2147483648 <= b < 2147483648 -> as_i32 b = b.
Proof. intros H. unfold as_i32. rewrite Z.mod_small by lia. lia. Qed.
Lemma as_u32_small b : 0 <= b < 4294967296 -> as_u32 b = b.
Proof. intros H. unfold as_u32. apply Z.mod_small. lia. Qed.

Section Pow.
  Variables (powf : dtype -> spec_float -> spec_float -> spec_float) (powi : dtype -> spec_float -> Z -> spec_float).
  Lemma pair_ok d f int a b lhs rhs r x y t : (length (tshape x) <= r)%nat -> (length (tshape y) <= r)%nat ->
    deval lhs rhs a = Some (pad r x) -> deval lhs rhs b = Some (pad r y) ->
    (forall u v w, In u (tdata x) -> In v (tdata y) -> f u v = Some w -> burn_pow powf d int u v = Some w) ->
    broadcast2 f x y = Some t ->
    run_pow powf powi d lhs rhs (PDevice int a b) = Some (RTensor (pad r t)).
  Proof.
    intros Lx Ly Ea Eb Hf Ht. cbn [run_pow]. rewrite Ea, Eb, !len_pad, Nat.eqb_refl by assumption.
    rewrite (broadcast2_pad (burn_pow powf d int) r x y t); auto. eapply broadcast2_mono; [|exact Ht]. exact Hf.
  Qed.

  Lemma pow_ok d d' lty rty vl vr tl tr t :
    stands_for d lty vl tl -> stands_for d' rty vr tr -> pow_operands d d' lty rty vr -> onnx_pow powf powi d tl tr = Some t ->
    exists c ty v, gen_pow lty rty = Some c /\ infer_pow lty rty = Some ty /\ run_pow powf powi d vl vr c = Some v /\ stands_for d ty v t.
  Proof.
    intros Hl Hr [Hd' Hc] Ht.
    assert (Tl : device lty \/ native lty) by (destruct Hc as [?|[?|[?|?]]]; intuition).
    assert (Tr : device rty \/ native rty) by (destruct Hc as [?|[?|[?|?]]]; intuition).
    destruct (stands_inv _ _ _ _ Tl Hl) as [Il El]. destruct (stands_inv _ _ _ _ Tr Hr) as [Ir Er].
    assert (Zl : is_tensor_ty lty = true -> rank_of lty <> 0%N) by (destruct lty; try discriminate; cbn in *; tauto).
    assert (Zr : is_tensor_ty rty = true -> rank_of rty <> 0%N) by (destruct rty; try discriminate; cbn in *; tauto).
    rewrite (rank_device _ Tl) in Zl. rewrite (rank_device _ Tr) in Zr.
    destruct (infer_list d [lty; rty]) as (ty & Hi & Hs).
    { apply Forall_cons; [exact Tl|apply Forall_cons; [exact Tr|apply Forall_nil]]. }
    { destruct lty, rty; cbn in *; try (destruct Tl; contradiction); try (destruct Tr; contradiction); intuition congruence. }
    { unfold ranks. cbn. rewrite !orb_false_r. destruct (is_tensor_ty lty); cbn; intros; [|apply Zr in H]; try (specialize (Zl eq_refl)); lia. }
    destruct Il as (Wl & Fl & Vl & Sl). destruct Ir as (Wr & Fr & Vr & Sr).
    assert (FF : twf t /\ Forall (in_dtype d) (tdata t) /\ length (tshape t) = Nat.max (length (tshape tl)) (length (tshape tr))).
    { apply (broadcast2_facts (pow_elt powf powi d) tl tr t); [|exact Ht]. intros a b r Ha _ H. eapply pow_in_dtype; [|exact H].
      rewrite Forall_forall in Fl. auto. }
    destruct FF as (W & F & L).
    assert (RK : N.to_nat (ranks [lty; rty]) = Nat.max (N.to_nat (device_rank lty)) (N.to_nat (device_rank rty))) by (unfold ranks; cbn; lia).
    assert (S : if is_tensor_ty lty || is_tensor_ty rty
                then on_device lty || on_device rty = true /\ length (tshape t) = N.to_nat (ranks [lty; rty]) else tshape t = []).
    { rewrite RK. destruct (is_tensor_ty lty) eqn:T1; cbn [orb].
      - destruct Sl as [Dl Ll]. rewrite Dl. split; [reflexivity|]. specialize (Zl eq_refl).
        destruct (is_tensor_ty rty) eqn:T2; [destruct Sr; lia|]. rewrite Sr in L. cbn in L.
        assert (device_rank rty <= 1)%N by (destruct rty; cbn in *; try discriminate T2; try (destruct Tr; contradiction); lia). lia.
      - rewrite Sl in L. cbn in L. destruct (is_tensor_ty rty) eqn:T2.
        + destruct Sr as [Dr Lr]. rewrite Dr, orb_true_r. split; [reflexivity|]. specialize (Zr eq_refl).
          assert (device_rank lty <= 1)%N by (destruct lty; cbn in *; try discriminate T1; try (destruct Tl; contradiction); lia). lia.
        + rewrite Sr in L. cbn in L. destruct (tshape t); [reflexivity|discriminate]. }
    assert (LE : (length (tshape t) <= N.to_nat (ranks [lty; rty]))%nat \/ on_device lty || on_device rty = false).
    { destruct (on_device lty || on_device rty) eqn:D; [left|right; reflexivity]. rewrite RK.
      destruct (is_tensor_ty lty || is_tensor_ty rty); [destruct S; lia|]. rewrite S. cbn. lia. }
    assert (FIN : forall c v, gen_pow lty rty = Some c -> run_pow powf powi d vl vr c = Some v ->
              (if on_device lty || on_device rty then v = RTensor (pad (N.to_nat (ranks [lty; rty])) t) else exists x, v = RNative x /\ t = mkT [] [x]) ->
              exists c ty v, gen_pow lty rty = Some c /\ infer_pow lty rty = Some ty /\ run_pow powf powi d vl vr c = Some v /\ stands_for d ty v t).
    { intros c v Hg Hv Hx. exists c, ty, v. split; [exact Hg|]. split; [exact Hi|]. split; [exact Hv|]. apply Hs.
      split; [exact W|]. split; [exact F|]. cbn [existsb]. rewrite !orb_false_r. split; [|exact S].
      destruct (on_device lty || on_device rty); [|exact Hx]. split; [exact Hx|]. destruct LE as [LE|LE]; [exact LE|discriminate]. }
    pose proof (power_type_of d' rty Er Tr Hd') as PT.
    rewrite Forall_forall in Fl, Fr.
    destruct Hc as [(Dl & Dr & ->)|[(Dl & Dr & Hc)|[(Dl & Dr & Hc & He)|(Dl & Hf & Dr & ->)]]].
    - assert (Bl : on_device lty = true) by (destruct lty; try contradiction; reflexivity).
      assert (Br : on_device rty = true) by (destruct rty; try contradiction; reflexivity).
      rewrite Bl in Vl. rewrite Br in Vr. destruct Vl as [-> Ll], Vr as [-> Lr].
      eapply FIN.
      + unfold gen_pow. rewrite PT, Bl, Br. reflexivity.
      + unfold pow_pair. rewrite (rank_device _ Tl), (rank_device _ Tr).
        assert (G : forall a b, deval (RTensor (pad (N.to_nat (device_rank lty)) tl)) (RTensor (pad (N.to_nat (device_rank rty)) tr)) a = Some (pad (N.to_nat (ranks [lty; rty])) tl) ->
                    deval (RTensor (pad (N.to_nat (device_rank lty)) tl)) (RTensor (pad (N.to_nat (device_rank rty)) tr)) b = Some (pad (N.to_nat (ranks [lty; rty])) tr) ->
                    run_pow powf powi d (RTensor (pad (N.to_nat (device_rank lty)) tl)) (RTensor (pad (N.to_nat (device_rank rty)) tr)) (PDevice (signed d) a b)
                    = Some (RTensor (pad (N.to_nat (ranks [lty; rty])) t))).
        { intros a b Ea Eb. eapply (pair_ok d (pow_elt powf powi d)); [| |exact Ea|exact Eb| |exact Ht]; try lia.
          intros u w z Hu Hw. apply burn_pow_ok; auto. }
        destruct (N.eqb_spec (device_rank lty) (device_rank rty)) as [E|E]; [|destruct (N.ltb_spec (device_rank rty) (device_rank lty)) as [E'|E']].
        * apply G; cbn [deval var]; do 2 f_equal; lia.
        * apply G; cbn [deval var option_map]; [do 2 f_equal; lia|]. f_equal. rewrite RK.
          replace (N.to_nat (device_rank lty - device_rank rty)) with (N.to_nat (device_rank lty) - N.to_nat (device_rank rty))%nat by lia.
          rewrite unsqueeze_pad by lia. f_equal. lia.
        * apply G; cbn [deval var option_map]; [|do 2 f_equal; lia]. f_equal. rewrite RK.
          replace (N.to_nat (device_rank rty - device_rank lty)) with (N.to_nat (device_rank rty) - N.to_nat (device_rank lty))%nat by lia.
          rewrite unsqueeze_pad by lia. f_equal. lia.
      + rewrite Bl. reflexivity.
    - assert (Bl : on_device lty = true) by (destruct lty; try contradiction; reflexivity).
      assert (Br : on_device rty = false) by (destruct rty; try contradiction; reflexivity).
      rewrite Bl in Vl. rewrite Br in Vr. destruct Vl as [-> Ll], Vr as (y & -> & ->).
      eapply (FIN (PByScalar (signed d'))).
      + unfold gen_pow. rewrite PT, Bl, Br. cbn [andb]. destruct lty; try contradiction; destruct rty; try contradiction; destruct (signed d'); reflexivity.
      + cbn [run_pow]. unfold onnx_pow in Ht. rewrite broadcast2_scalar_r in Ht by exact Wl.
        rewrite (tmapo_pad _ _ tl t); [reflexivity|]. eapply tmapo_mono; [|exact Ht]. intros u w Hu. apply burn_pow_scalar_ok; auto.
        apply Fr. left. reflexivity.
      + rewrite Bl. cbn [orb]. do 2 f_equal. rewrite RK. destruct rty; try contradiction. cbn [device_rank]. lia.
    - destruct lty as [|dl| |]; try contradiction. destruct rty as [|dr| |]; try contradiction. cbn in El, Er. subst dl dr.
      cbn [on_device] in Vl, Vr. destruct Vl as (x & -> & ->). destruct Vr as (y & -> & ->).
      unfold onnx_pow in Ht. rewrite broadcast2_scalar_r in Ht by reflexivity. unfold tmapo in Ht. cbn [tdata mapo tshape] in Ht.
      destruct (pow_elt powf powi d x y) as [z|] eqn:Ez; [|discriminate]. injection Ht as <-.
      pose proof (Fl x (or_introl eq_refl)) as Ix. pose proof (Fr y (or_introl eq_refl)) as Iy.
      eapply (FIN (if signed d' then if floating d then PNativeFI else PNativeI else PNativeF) (RNative z)).
      + unfold gen_pow. rewrite PT. cbn [on_device andb]. destruct (signed d'); reflexivity.
      + destruct (signed d') eqn:Sd.
        * destruct (elt_signed _ _ Sd Iy) as [b ->]. specialize (He b eq_refl). destruct (floating d) eqn:Fd.
          -- destruct (elt_float _ _ Fd Ix) as [a ->]. cbn [run_pow]. rewrite as_i32_small by exact He. injection Ez as <-. reflexivity.
          -- destruct Hc as [-> | [Hc _]]; [|discriminate]. destruct (elt_signed _ _ Sd Ix) as [a ->]. cbn [run_pow pow_elt] in *.
             destruct (Z.ltb_spec b 0); [discriminate|]. rewrite as_u32_small by lia. destruct (fits d _); [|discriminate]. injection Ez as <-. reflexivity.
        * destruct Hd' as [Hd'|Hd']; [|discriminate]. destruct Hc as [-> | [_ Hc]]; [|discriminate].
          destruct (elt_float _ _ Hd' Ix) as [a ->]. destruct (elt_float _ _ Hd' Iy) as [b ->]. cbn [run_pow]. injection Ez as <-. reflexivity.
      + cbn [on_device orb]. exists z. auto.
    - destruct lty as [|dl| |]; try contradiction. cbn in El. subst dl.
      assert (Br : on_device rty = true) by (destruct rty; try contradiction; reflexivity).
      cbn [on_device] in Vl. rewrite Br in Vr. destruct Vl as (x & -> & ->), Vr as [-> Lr].
      pose proof (floating_signed _ Hf) as Sg. rewrite Sg in PT.
      assert (N0 : device_rank rty <> 0%N).
      { destruct rty; try contradiction; cbn in *; [discriminate|]. apply Zr. reflexivity. }
      eapply FIN.
      + unfold gen_pow. rewrite PT. cbn [on_device andb]. rewrite Br. destruct rty; try contradiction; reflexivity.
      + eapply (pair_ok d (pow_elt powf powi d) false _ _ _ _ (N.to_nat (ranks [ScalarNative d; rty])) (mkT [] [x]) tr); [| | | | |exact Ht].
        * cbn. lia.
        * lia.
        * unfold pow_base. rewrite (rank_device _ Tr).
          replace (N.to_nat (ranks [ScalarNative d; rty])) with (N.to_nat (device_rank rty)) by (rewrite RK; cbn; lia).
          unfold pad. cbn [tshape length]. rewrite Nat.sub_0_r. destruct (N.ltb_spec 1 (device_rank rty)).
          -- cbn [deval var option_map]. change (mkT [1%N] [x]) with (unsqueeze 1 (mkT [] [x])). rewrite unsqueeze_unsqueeze. do 2 f_equal. lia.
          -- replace (device_rank rty) with 1%N by lia. reflexivity.
        * cbn [deval var]. do 2 f_equal. rewrite RK. cbn. lia.
        * intros u w z Hu Hw Hz. rewrite <- Sg. apply (burn_pow_ok powf powi); auto.
      + rewrite Br. reflexivity.
  Qed.
End Pow.

(** ** Sum *)
Lemma add_ok d r d1 h1 v1 t1 d2 h2 v2 t2 t : inv d r d1 h1 v1 t1 -> inv d r d2 h2 v2 t2 -> onnx_binary d OAdd t1 t2 = Some t ->
  exists v, rust_add d v1 v2 = Some v /\ inv d r (d1 || d2) (h1 || h2) v t.
Proof.
  intros (W1 & F1 & V1 & S1) (W2 & F2 & V2 & S2) Ht.
  assert (FF : twf t /\ Forall (in_dtype d) (tdata t) /\ length (tshape t) = Nat.max (length (tshape t1)) (length (tshape t2))).
  { apply (broadcast2_facts (onnx_elt d OAdd) t1 t2 t); [|exact Ht]. intros a b x Ha _ H. rewrite Forall_forall in F1.
    apply (onnx_elt_in_dtype d OAdd a b x (F1 a Ha) H). }
  destruct FF as (W & F & L).
  assert (S : (if d1 || d2 then (length (tshape t) <= r)%nat else True) /\ if h1 || h2 then d1 || d2 = true /\ length (tshape t) = r else tshape t = []).
  { destruct d1, d2, h1, h2; cbn [orb] in *; try (destruct S1; discriminate); try (destruct S2; discriminate);
      repeat match goal with H : _ /\ _ |- _ => destruct H end; repeat match goal with H : exists _, _ |- _ => destruct H end;
      repeat match goal with H : _ /\ _ |- _ => destruct H end; subst; cbn [tshape length] in *;
      repeat match goal with H : tshape _ = [] |- _ => rewrite H in *; cbn [length] in * end; try (split; [|split]); try reflexivity; try lia;
      split; try lia; try exact I; destruct (tshape t); try reflexivity; cbn in *; lia. }
  destruct S as [S3 S4].
  assert (G : forall v, rust_add d v1 v2 = Some v -> (if d1 || d2 then v = RTensor (pad r t) else exists x, v = RNative x /\ t = mkT [] [x]) ->
            exists v, rust_add d v1 v2 = Some v /\ inv d r (d1 || d2) (h1 || h2) v t).
  { intros v Hv Hx. exists v. split; [exact Hv|]. split; [exact W|]. split; [exact F|]. split; [|exact S4]. destruct (d1 || d2); auto. }
  unfold onnx_binary in Ht. destruct d1, d2; cbn [orb] in *.
  - destruct V1 as [-> L1], V2 as [-> L2]. eapply G; [|reflexivity]. cbn [rust_add]. rewrite !len_pad, Nat.eqb_refl by assumption.
    rewrite (broadcast2_pad _ r t1 t2 t); auto. eapply broadcast2_mono; [|exact Ht]. intros a b x _ _. apply (onnx_burn d OAdd).
  - destruct V1 as [-> L1], V2 as (y & -> & ->). eapply G; [|reflexivity]. cbn [rust_add]. rewrite broadcast2_scalar_r in Ht by exact W1.
    rewrite (tmapo_pad _ r t1 t); [reflexivity|]. eapply tmapo_mono; [|exact Ht]. intros a x _. apply (onnx_burn d OAdd).
  - destruct V1 as (y & -> & ->), V2 as [-> L2]. eapply G; [|reflexivity]. cbn [rust_add]. rewrite broadcast2_scalar_l in Ht by exact W2.
    rewrite (tmapo_pad _ r t2 t); [reflexivity|]. eapply tmapo_mono; [|exact Ht]. intros a x _. apply (onnx_infix_tensor d OAdd). auto.
  - destruct V1 as (x & -> & ->), V2 as (y & -> & ->). rewrite broadcast2_scalar_r in Ht by reflexivity. unfold tmapo in Ht. cbn [tdata mapo tshape] in Ht.
    destruct (onnx_elt d OAdd x y) as [z|] eqn:Ez; [|discriminate]. injection Ht as <-. apply (G (RNative z)); [|eauto]. cbn [rust_add].
    pose proof (onnx_native d OAdd x y z ltac:(discriminate) ltac:(discriminate) ltac:(discriminate) Ez) as En. cbn [infix_of] in En. rewrite En. reflexivity.
Qed.

Definition okop (d : dtype) (r : nat) (o : operand) : Prop := inv d r (on_device (oty o)) (is_tensor_ty (oty o)) (oval o) (oten o).
Lemma sum_from_ok d r : forall l dev h v t s, inv d r dev h v t -> Forall (okop d r) l -> add_all d t (map oten l) = Some s ->
  exists w, sum_from d v (map oval l) = Some w /\
    inv d r (dev || existsb on_device (map oty l)) (h || existsb is_tensor_ty (map oty l)) w s.
Proof.
  induction l as [|o l IH]; intros dev h v t s Hv Hl Hs; cbn in *.
  - injection Hs as <-. exists v. rewrite !orb_false_r. auto.
  - inversion Hl as [|? ? Ho Hl']; subst. destruct (onnx_binary d OAdd t (oten o)) as [t'|] eqn:Et; [|discriminate].
    destruct (add_ok _ _ _ _ _ _ _ _ _ _ _ Hv Ho Et) as (v' & -> & Hv').
    destruct (IH _ _ _ _ _ Hv' Hl' Hs) as (w & Hw & Hi). exists w. rewrite !orb_assoc. auto.
Qed.
Lemma rank_member tys ty : In ty tys -> (device_rank ty <= ranks tys)%N.
Proof. unfold ranks. induction tys as [|u tys IH]; cbn; [contradiction|]. intros [-> | H]; [lia|]. specialize (IH H). lia. Qed.
Lemma ranks_bound tys b : (forall ty, In ty tys -> (device_rank ty <= b)%N) -> (ranks tys <= b)%N.
Proof.
  unfold ranks. induction tys as [|u tys IH]; cbn; intros H; [lia|]. pose proof (H u (or_introl eq_refl)).
  assert (fold_right N.max 0 (map device_rank tys) <= b)%N by (apply IH; auto). lia.
Qed.
Lemma dtype_list d tys : tys <> [] -> Forall (elem_ok d) tys -> Forall (fun ty => device ty \/ native ty) tys -> broadcast_dtype tys None = Some d.
Proof.
  intros Hn He Ht. unfold broadcast_dtype.
  match goal with |- context [filter_map ?g tys] => set (f := g) end.
  assert (A : forall x, In x (filter_map f tys) -> x = d).
  { clear Hn Ht. induction He as [|ty tys E _ IH]; cbn; [contradiction|]. intros x.
    destruct ty; cbn in *; try (intros [<-|?]; [tauto|auto]); auto. }
  destruct (filter_map f tys) as [|x l]; [|f_equal; apply A; left; reflexivity].
  destruct tys as [|ty tys]; [congruence|]. inversion He; subst. inversion Ht; subst.
  destruct ty; cbn in *; try (f_equal; tauto).
Qed.
Lemma ops_ok d r l : l <> [] -> Forall (fun o => stands_for d (oty o) (oval o) (oten o)) l ->
  Forall (fun o => native (oty o) \/ device (oty o) /\ device_rank (oty o) = r) l ->
  Forall (okop d (N.to_nat (ranks (map oty l)))) l /\
  exists ty, broadcast_output_type (map oty l) None = Some ty /\
    (existsb is_tensor_ty (map oty l) = true -> ranks (map oty l) <> 0%N) /\
    forall v t, inv d (N.to_nat (ranks (map oty l))) (existsb on_device (map oty l)) (existsb is_tensor_ty (map oty l)) v t -> stands_for d ty v t.
Proof.
  intros Hn Hs Hr.
  assert (HT : Forall (fun ty => device ty \/ native ty) (map oty l)) by (rewrite Forall_map; eapply Forall_impl; [|exact Hr]; cbn; tauto).
  assert (HE : Forall (elem_ok d) (map oty l)).
  { rewrite Forall_map. eapply Forall_impl; [|exact Hs]. cbn. intros o H. eapply stands_elem. exact H. }
  rewrite Forall_forall in Hs, Hr.
  assert (HR : forall o, In o l -> device (oty o) -> device_rank (oty o) = ranks (map oty l)).
  { intros o Ho Do. assert (E : device_rank (oty o) = r).
    { destruct (Hr o Ho) as [X|[_ E]]; [|exact E]. destruct (oty o); contradiction. }
    assert (device_rank (oty o) <= ranks (map oty l))%N by (apply rank_member, in_map; exact Ho).
    assert (ranks (map oty l) <= r)%N.
    { apply ranks_bound. intros ty Hty. apply in_map_iff in Hty. destruct Hty as (o' & <- & Ho').
      destruct (Hr o' Ho') as [X|[_ X]]; [|lia]. destruct (oty o'); try contradiction. cbn. lia. }
    lia. }
  split.
  - apply Forall_forall. intros o Ho. assert (Ty : device (oty o) \/ native (oty o)) by (destruct (Hr o Ho) as [?|[? ?]]; auto).
    destruct (stands_inv _ _ _ _ Ty (Hs o Ho)) as [I _]. unfold okop. destruct Ty as [D|D].
    + rewrite <- (HR o Ho D). exact I.
    + destruct (oty o); try contradiction. exact I.
  - assert (NZ : existsb is_tensor_ty (map oty l) = true -> ranks (map oty l) <> 0%N).
    { intros H. apply existsb_exists in H. destruct H as (ty & Hin & Ht). apply in_map_iff in Hin. destruct Hin as (o & <- & Ho).
      rewrite Forall_forall in HE. pose proof (HE (oty o) (in_map oty _ _ Ho)) as E. rewrite <- (HR o Ho) by (destruct (oty o); try discriminate; exact I).
      destruct (oty o); try discriminate. cbn in *. tauto. }
    destruct (infer_list d (map oty l)) as (ty & Hty & H); auto.
    + apply dtype_list; auto. destruct l; [congruence|discriminate].
    + exists ty. auto.
Qed.
Lemma sum_types_ok d tys : d <> BoolT -> Forall (elem_ok d) tys -> Forall (fun ty => device ty \/ native ty) tys -> forall e, (e = None \/ e = Some d) -> sum_types e tys = true.
Proof.
  intros Hb He Ht. induction He as [|ty tys E _ IH]; intros e Hd; [reflexivity|]. inversion Ht; subst. cbn [sum_types].
  assert (D : type_elem ty = d). { destruct ty; cbn in *; try (destruct H1; contradiction); tauto. }
  rewrite D. replace (dtype_beq d BoolT) with false by (destruct d; try reflexivity; congruence).
  destruct Hd as [-> | ->]; [auto|]. replace (dtype_beq d d) with true by (destruct d; reflexivity). auto.
Qed.
Lemma sum_run d r l t : l <> [] -> Forall (fun o => stands_for d (oty o) (oval o) (oten o)) l ->
  Forall (fun o => native (oty o) \/ device (oty o) /\ device_rank (oty o) = r) l ->
  onnx_sum d (map oten l) = Some t ->
  exists v, run_sum d (map oval l) = Some v /\
    inv d (N.to_nat (ranks (map oty l))) (existsb on_device (map oty l)) (existsb is_tensor_ty (map oty l)) v t.
Proof.
  intros Hn Hs Hr Ht. destruct (ops_ok d r l Hn Hs Hr) as [Hok _]. destruct l as [|o l]; [congruence|].
  cbn [map onnx_sum run_sum existsb] in *. inversion Hok as [|? ? Ho Hl]; subst.
  apply (sum_from_ok d _ l _ _ _ _ _ Ho Hl Ht).
Qed.
Lemma sum_ok d r l t : l <> [] -> d <> BoolT -> Forall (fun o => stands_for d (oty o) (oval o) (oten o)) l ->
  Forall (fun o => native (oty o) \/ device (oty o) /\ device_rank (oty o) = r) l ->
  onnx_sum d (map oten l) = Some t ->
  exists ty v, infer_sum (map oty l) = IOk ty /\ run_sum d (map oval l) = Some v /\ stands_for d ty v t.
Proof.
  intros Hn Hb Hs Hr Ht. destruct (sum_run d r l t Hn Hs Hr Ht) as (v & Hv & I).
  destruct (ops_ok d r l Hn Hs Hr) as [_ (ty & Hty & _ & H)]. exists ty, v. split; [|auto].
  unfold infer_sum. rewrite (sum_types_ok d); [rewrite Hty; reflexivity|exact Hb| | |auto].
  - rewrite Forall_map. eapply Forall_impl; [|exact Hs]. cbn. intros o X. eapply stands_elem. exact X.
  - rewrite Forall_map. eapply Forall_impl; [|exact Hr]. cbn. tauto.
Qed.
Lemma mean_ok d r l t : Exists (fun o => device (oty o)) l -> Forall (fun o => stands_for d (oty o) (oval o) (oten o)) l ->
  Forall (fun o => native (oty o) \/ device (oty o) /\ device_rank (oty o) = r) l ->
  onnx_mean d (map oten l) = Some t ->
  exists ty v, infer_mean (map oty l) = IOk ty /\ run_mean d (map oval l) = Some v /\ stands_for d ty v t.
Proof.
  intros He Hs Hr Ht. assert (Hn : l <> []) by (intros ->; inversion He).
  unfold onnx_mean in Ht. destruct (onnx_sum d (map oten l)) as [s|] eqn:Es; [|discriminate].
  destruct (sum_run d r l s Hn Hs Hr Es) as (v & Hv & (W & F & V & Sh)).
  destruct (ops_ok d r l Hn Hs Hr) as [_ (ty & Hty & _ & H)].
  assert (Dv : existsb on_device (map oty l) = true).
  { apply Exists_exists in He. destruct He as (o & Ho & Do). apply existsb_exists. exists (oty o). split; [apply in_map; exact Ho|].
    destruct (oty o); try contradiction; reflexivity. }
  rewrite Dv in V, Sh. destruct V as [-> L]. unfold onnx_binary in Ht. rewrite broadcast2_scalar_r in Ht by exact W.
  exists ty, (RTensor (pad (N.to_nat (ranks (map oty l))) t)). unfold infer_mean. rewrite Hty. split; [reflexivity|]. split.
  - unfold run_mean. rewrite Hv. rewrite map_length in *. rewrite (tmapo_pad _ _ s t); [reflexivity|]. eapply tmapo_mono; [|exact Ht].
    intros a x _. apply (onnx_burn d ODiv).
  - apply H. rewrite Dv. pose proof (tmapo_shape _ _ _ Ht) as E. split; [|split; [|rewrite E; split; [auto|exact Sh]]].
    + unfold tmapo in Ht. destruct (mapo _ (tdata s)) as [l'|] eqn:El; [|discriminate]. injection Ht as <-. unfold twf in *. cbn.
      rewrite <- W. clear -El. revert l' El. induction (tdata s) as [|a q IH]; intros l' El; cbn in El; [injection El as <-; reflexivity|].
      destruct (onnx_elt _ _ _ _); [|discriminate]. destruct (mapo _ q); [|discriminate]. injection El as <-. cbn. f_equal. apply IH. reflexivity.
    + unfold tmapo in Ht. destruct (mapo _ (tdata s)) as [l'|] eqn:El; [|discriminate]. injection Ht as <-. cbn.
      eapply mapo_Forall; [|exact El]. intros x y Hx Hy. rewrite Forall_forall in F. exact (onnx_elt_in_dtype d ODiv _ _ _ (F x Hx) Hy).
Qed.

(** ** Not, BitwiseNot *)
Lemma mapo_length {A B} (f : A -> option B) : forall l r, mapo f l = Some r -> length r = length l.
Proof.
  induction l as [|a l IH]; intros r H; cbn in H; [injection H as <-; reflexivity|]. destruct (f a); [|discriminate].
  destruct (mapo f l) as [q|] eqn:E; [|discriminate]. injection H as <-. cbn. rewrite (IH q); auto.
Qed.
Lemma each_ok d ty v t r f g : device ty -> stands_for d ty v t -> each f t = Some r ->
  (forall x y, In x (tdata t) -> f x = Some y -> in_dtype d y /\ g x = Some y) ->
  exists w, match v with RTensor t => option_map RTensor (tmapo g t) | _ => None end = Some w /\ stands_for d ty w r.
Proof.
  intros D (W & F & H) He Hf. unfold each in He. destruct (mapo f (tdata t)) as [l|] eqn:El; [|discriminate]. injection He as <-.
  assert (Eg : mapo g (tdata t) = Some l) by (eapply mapo_mono; [|exact El]; intros x y Hx Hy; apply (Hf x y Hx Hy)).
  assert (Fl : Forall (in_dtype d) l) by (eapply mapo_Forall; [|exact El]; intros x y Hx Hy; apply (Hf x y Hx Hy)).
  assert (Wl : twf (mkT (tshape t) l)) by (unfold twf in *; cbn; rewrite (mapo_length _ _ _ El); exact W).
  destruct ty as [a|a|n|y], v as [t'|x|q]; try contradiction; unfold tmapo.
  - destruct H as (-> & S & ->). cbn [tdata tshape]. rewrite Eg. cbn [option_map]. eexists. split; [reflexivity|].
    split; [exact Wl|]. split; [exact Fl|]. cbn. auto.
  - destruct H as (-> & Hd & L & N). rewrite Eg. cbn [option_map]. eexists. split; [reflexivity|].
    split; [exact Wl|]. split; [exact Fl|]. cbn. auto.
Qed.
Lemma lxor_ones k z : 0 <= k -> 0 <= z <= Z.ones k -> Z.lxor z (Z.ones k) = Z.ones k - z.
Proof.
  intros Hk Hz. rewrite Z.ones_equiv in Hz. assert (Hs : z < 2 ^ k) by lia.
  assert (E : Z.ldiff z (Z.ones k) = 0).
  { destruct (Z.eq_dec z 0) as [->|]; [apply Z.ldiff_0_l|]. apply Z.ldiff_ones_r_low; [lia|]. apply Z.log2_lt_pow2; lia. }
  rewrite Z.sub_nocarry_ldiff by exact E. apply Z.bits_inj'. intros n Hn.
  rewrite Z.lxor_spec, Z.ldiff_spec. assert (B : Z.testbit (Z.ldiff z (Z.ones k)) n = false) by (rewrite E; apply Z.bits_0).
  rewrite Z.ldiff_spec in B. destruct (Z.testbit z n), (Z.testbit (Z.ones k) n); try reflexivity. discriminate B.
Qed.
Lemma flip_ok d z lo hi : int_range d = Some (lo, hi) -> lo <= z <= hi -> flip_bits d z = lo + hi - z.
Proof.
  intros H Hz. destruct d; try discriminate H; injection H as <- <-; cbn [flip_bits int_range];
    try (change 18446744073709551615 with (Z.ones 64) in *; rewrite lxor_ones by lia; lia);
    try (change 4294967295 with (Z.ones 32) in *; rewrite lxor_ones by lia; lia);
    try (change 65535 with (Z.ones 16) in *; rewrite lxor_ones by lia; lia);
    try (change 255 with (Z.ones 8) in *; rewrite lxor_ones by lia; lia);
    unfold Z.lnot; lia.
Qed.
Lemma bitnot_range d x y : in_dtype d x -> bitnot_elt d x = Some y ->
  in_dtype d y /\ (match x with EI z => Some (EI (flip_bits d z)) | _ => None end) = Some y.
Proof.
  unfold bitnot_elt. destruct x as [z|b|f]; try discriminate. intros (lo & hi & E & Hz). rewrite E. intros H. injection H as <-.
  split; [|rewrite (flip_ok _ _ _ _ E Hz); reflexivity]. exists lo, hi. split; [exact E|]. lia.
Qed.
