(** Normalisation layers compute what ONNX prescribes (C66). *)
From Coq Require Import Lia ZifyBool ZifyNat ZifyN Reals Lra.
From Verif Require Import Index_Model AxisOps_Model Norm_Nodes Conv_Final Conv_Props Linear_Model Linear_Proofs.
Import Rdefinitions Conv_Spec Norm_Spec Tensor_Spec.
Local Open Scope N_scope.

Section Read.
  Context {T : Type} (value : arg -> option (tensor T)).
  Lemma param_ok n k a c t : nth_error (ninputs n) k = Some a -> constant_is value a t -> per_channel c t -> param value n k [c] = IOk t.
  Proof. intros Hk Hc (_ & Hs). unfold param. rewrite Hk, (snapshot_of value a t Hc), Hs, eqs_refl. reflexivity. Qed.
  Lemma features_ok n a c : nth_error (ninputs n) 1 = Some a -> shape_known a [c] -> features n = IOk c.
  Proof. intros Hk (t & Ht & Hs). unfold features. rewrite Hk. unfold static_shape_known. rewrite Ht, Hs. reflexivity. Qed.
  Lemma float_or_ok n key d bits : f32_attr n key d bits -> float_or n key d = IOk bits.
  Proof. unfold f32_attr, float_or. destruct (get_attr n key) as [[]|]; intros H; try contradiction; subst; reflexivity. Qed.
End Read.
Lemma args_cons {A B} (P : A -> B -> Prop) l y ys : Forall2 P l (y :: ys) -> exists a r, l = a :: r /\ P a y /\ Forall2 P r ys.
Proof. intros H. inversion H as [|a ? r ? H1 H2]; subst. exists a, r. auto. Qed.
Lemma args_nil {A B} (P : A -> B -> Prop) l : Forall2 P l [] -> l = [].
Proof. intros H. inversion H. reflexivity. Qed.

(** BatchNormalization with the parameters constants or computed, for inputs of any rank, and
    [epsilon] given.  Missing: [epsilon] left out and [training_mode] (both wrong, below);
    rounding. *)
Theorem C66_batch_norm_partial : forall (T : Type) (add sub mul div : T -> T -> T) (sqrt : T -> T) (zero : T) (num : N -> T)
    (value : arg -> option (tensor T)) (e : string -> option (tensor T)) (n : rnode) (X S B M V : tensor T) (c eps mom : N) (out : string),
  input_is e n X -> with_channels X c -> constants_are value n c [S; B; M; V] \/ computed_are value e n c [S; B; M; V] -> output_name n out ->
  get_attr n "epsilon" = Some (AFloat eps) -> f32_attr n "momentum" 0 mom ->
  exists Y, batch_norm_run add sub mul div sqrt num value n e = Some (out, Y) /\ onnx_batch_norm add sub mul div sqrt zero (num eps) X S B M V = Some Y.
Proof.
  intros T add sub mul div sqrt zero num value e n X S B M V c eps mom out HX (nb & ds & SX) HP Ho He Hm. pose proof HX as (x & ins & Hn & Hx & WX & FX).
  assert (Ee : float_or n "epsilon" 0 = IOk eps) by (unfold float_or; rewrite He; reflexivity).
  destruct HP as [(x' & args & Hn' & Ha & Hk)|(x' & args & Hn' & Ha & Hk)]; rewrite Hn in Hn'; injection Hn' as <- ->.
  - apply args_cons in Ha. destruct Ha as (a1 & r1 & -> & (C1 & P1) & Ha). apply args_cons in Ha. destruct Ha as (a2 & r2 & -> & (C2 & P2) & Ha). apply args_cons in Ha. destruct Ha as (a3 & r3 & -> & (C3 & P3) & Ha). apply args_cons in Ha. destruct Ha as (a4 & r4 & -> & (C4 & P4) & Ha). apply args_nil in Ha. subst r4.
    assert (I : forall k a, nth_error [x; a1; a2; a3; a4] k = Some a -> nth_error (ninputs n) k = Some a) by (intros k a E; rewrite Hn; exact E).
    destruct (bn_forward_ok add sub mul div sqrt zero (fun v _ => v) num X nb c ds eps S B M V WX SX P1 P2 P3 P4) as (Y & EY & EO). exists Y. split; [|exact EO].
    unfold batch_norm_run, bn_config. rewrite (float_or_ok _ _ _ _ Hm), Ee. cbn [ibind]. rewrite Hn. cbn [length Nat.ltb Nat.leb forallb nth_error]. rewrite (proj1 C1), (proj1 C2), (proj1 C3), (proj1 C4). cbn [andb].
    unfold bn_module. rewrite (features_ok n a1 c (I 1%nat a1 eq_refl) (Hk _ _ eq_refl)). cbn [ibind].
    rewrite (param_ok value n 1 a1 c S (I 1%nat a1 eq_refl) C1 P1). cbn [ibind]. rewrite (param_ok value n 2 a2 c B (I 2%nat a2 eq_refl) C2 P2). cbn [ibind]. rewrite (param_ok value n 3 a3 c M (I 3%nat a3 eq_refl) C3 P3). cbn [ibind]. rewrite (param_ok value n 4 a4 c V (I 4%nat a4 eq_refl) C4 P4). cbn [ibind].
    rewrite (forward_is e n X _ out HX Ho), EY. reflexivity.
  - apply args_cons in Ha. destruct Ha as (a1 & r1 & -> & (C1 & P1) & Ha). apply args_cons in Ha. destruct Ha as (a2 & r2 & -> & (C2 & P2) & Ha). apply args_cons in Ha. destruct Ha as (a3 & r3 & -> & (C3 & P3) & Ha). apply args_cons in Ha. destruct Ha as (a4 & r4 & -> & (C4 & P4) & Ha). apply args_nil in Ha. subst r4.
    destruct (batch_core add sub mul div sqrt zero (fun v _ => v) num X nb c ds eps S B M V WX SX P1 P2 P3 P4) as (m & v & g & b & d & y & y1 & Y & E1 & E2 & E3 & E4 & E5 & E6 & E7 & E8 & EO). exists Y. split; [|exact EO].
    unfold batch_norm_run, bn_config. rewrite (float_or_ok _ _ _ _ Hm), Ee. cbn [ibind]. rewrite Hn. cbn [length Nat.ltb Nat.leb forallb nth_error].
    match goal with |- (if ?b then _ else _) = _ => replace b with false end.
    2:{ symmetry. destruct Hk as (a & Hin & Hv). destruct Hin as [<-|[<-|[<-|[<-|[]]]]]; rewrite Hv; repeat (rewrite ?andb_false_r; try reflexivity; match goal with |- context [value ?a] => destruct (value a) end); reflexivity. }
    rewrite (forward_is e n X _ out HX Ho). unfold bn_inline. rewrite Hn.
    destruct (aty x) as [d0|d0|n0|t] eqn:Et; cbn [Shapes_Spec.fits] in FX; [congruence|congruence|congruence|]. destruct FX as (Fr & _). rewrite SX in Fr.
    rewrite C1, C2, C3, C4. cbn [obind]. rewrite <- Fr. rewrite !(unsqueeze_channel add sub mul div sqrt zero (fun v _ => v) num _ c) by (first [assumption|cbn [length]; lia]).
    rewrite E3. cbn [obind]. rewrite E4. cbn [obind]. rewrite E1. cbn [obind]. rewrite E2. cbn [obind]. rewrite E5. cbn [obind]. rewrite E6. cbn [obind]. rewrite E7. cbn [obind]. rewrite E8. reflexivity.
Qed.
Print Assumptions C66_batch_norm_partial.

(** LayerNormalization over the last axis, with a bias or none.  Missing: other axes (refused,
    or wrong: below), the outputs Mean and InvStdDev, rounding. *)
Theorem C66_layer_norm_partial : forall (T : Type) (add sub mul div : T -> T -> T) (sqrt : T -> T) (zero : T) (over : T -> N -> T) (num : N -> T)
    (value : arg -> option (tensor T)) (e : string -> option (tensor T)) (n : rnode) (X S : tensor T) (B : option (tensor T)) (s : list N) (d eps : N) (out : string),
  input_is e n X -> tshape X = s ++ [d] -> constants_are value n d (S :: match B with Some b => [b] | None => [] end) -> output_name n out ->
  attrs_in n ["axis"; "epsilon"; "stash_type"]%string -> get_attr n "axis" = None \/ get_attr n "axis" = Some (AInt (-1)) -> f32_attr n "epsilon" epsilon_bits eps ->
  (forall a, get_attr n "stash_type" = Some a -> exists z, a = AInt z) ->
  (exists ty, infer_layer_norm value n = IOk ty /\ Shapes_Spec.fits ty (tshape X)) /\
  exists Y, layer_norm_run add sub mul div sqrt zero over num value n e = Some (out, Y) /\ onnx_layer_norm add sub mul div sqrt zero over (length s) (num eps) X S B = Some Y.
Proof.
  intros T add sub mul div sqrt zero over num value e n X S B s d eps out HX SX HP Ho Ha Hax Hm Hst. pose proof HX as (x & ins & Hn & Hx & WX & FX).
  destruct HP as (x' & args & Hn' & Hargs & Hk); rewrite Hn in Hn'; injection Hn' as <- ->. apply args_cons in Hargs. destruct Hargs as (a1 & r1 & -> & (C1 & P1) & Hargs).
  assert (I1 : nth_error (ninputs n) 1 = Some a1) by (rewrite Hn; reflexivity).
  split.
  - exists (aty x). split; [|exact FX]. unfold infer_layer_norm. rewrite I1, (proj1 C1).
    replace (forallb (fun kv : string * attr => mem_str (fst kv) ["axis"; "epsilon"; "stash_type"]%string) (nattrs n)) with true.
    2:{ symmetry. apply forallb_forall. intros [k v] Hin. cbn [fst]. pose proof (Ha k v Hin) as [<-|[<-|[<-|[]]]]; reflexivity. }
    cbn [negb]. unfold attr_i64_or. unfold first_input. rewrite Hn. destruct Hax as [-> | ->]; cbn; reflexivity.
  - assert (Est : exists z, stash_or n = IOk z). { unfold stash_or, attr_i64_or. destruct (get_attr n "stash_type") as [a|] eqn:Ea; [destruct (Hst a eq_refl) as [z ->]; exists z; reflexivity|eexists; reflexivity]. } destruct Est as [z Est].
    assert (HB : forall b, B = Some b -> per_channel d b). { intros b ->. apply args_cons in Hargs. destruct Hargs as (a2 & r2 & _ & (_ & P2) & _). exact P2. }
    destruct (ln_forward_ok add sub mul div sqrt zero over num X s d eps S B WX SX P1 HB) as (Y & EY & EO). exists Y. split; [|exact EO].
    unfold layer_norm_run, ln_module. rewrite (float_or_ok _ _ _ _ Hm). cbn [ibind]. rewrite Est. cbn [ibind]. rewrite (features_ok n a1 d I1 (Hk _ _ eq_refl)). cbn [ibind]. rewrite (param_ok value n 1 a1 d S I1 C1 P1). cbn [ibind].
    destruct B as [b|].
    + apply args_cons in Hargs. destruct Hargs as (a2 & r2 & -> & (C2 & P2) & Hargs). apply args_nil in Hargs. subst r2. assert (I2 : nth_error (ninputs n) 2 = Some a2) by (rewrite Hn; reflexivity).
      rewrite (param_ok value n 2 a2 d b I2 C2 P2). rewrite Hn. cbn [length Nat.ltb Nat.leb ibind]. rewrite (forward_is e n X _ out HX Ho), EY. reflexivity.
    + apply args_nil in Hargs. subst r1. rewrite Hn. cbn [length Nat.ltb Nat.leb ibind]. rewrite (forward_is e n X _ out HX Ho), EY. reflexivity.
Qed.
Print Assumptions C66_layer_norm_partial.

(** GroupNormalization with a scale and a bias for each channel (version 21).  Missing: a
    scale for each group (version 18; panics, below), rounding. *)
Theorem C66_group_norm_partial : forall (T : Type) (add sub mul div : T -> T -> T) (sqrt : T -> T) (zero : T) (over : T -> N -> T) (num : N -> T)
    (value : arg -> option (tensor T)) (e : string -> option (tensor T)) (n : rnode) (X S B : tensor T) (c groups eps : N) (out : string),
  input_is e n X -> with_channels X c -> constants_are value n c [S; B] -> output_name n out ->
  attrs_in n ["epsilon"; "num_groups"; "stash_type"]%string -> get_attr n "num_groups" = Some (AInt (Z.of_N groups)) -> 0 < groups < 2 ^ 63 -> c mod groups = 0 ->
  f32_attr n "epsilon" epsilon_bits eps -> (forall a, get_attr n "stash_type" = Some a -> exists z, a = AInt z) ->
  (exists ty, infer_group_norm value n = IOk ty /\ Shapes_Spec.fits ty (tshape X)) /\
  exists Y, group_norm_run add sub mul div sqrt zero over num value n e = Some (out, Y) /\ onnx_group_norm add sub mul div sqrt zero over groups (num eps) X S B = Some Y.
Proof.
  intros T add sub mul div sqrt zero over num value e n X S B c groups eps out HX (nb & ds & SX) HP Ho Ha Hg Gr Gm He Hst. pose proof HX as (x & ins & Hn & Hx & WX & FX).
  destruct HP as (x' & args & Hn' & Hargs & Hk); rewrite Hn in Hn'; injection Hn' as <- ->. apply args_cons in Hargs. destruct Hargs as (a1 & r1 & -> & (C1 & P1) & Hargs). apply args_cons in Hargs. destruct Hargs as (a2 & r2 & -> & (C2 & P2) & Hargs). apply args_nil in Hargs. subst r2.
  assert (I1 : nth_error (ninputs n) 1 = Some a1) by (rewrite Hn; reflexivity). assert (I2 : nth_error (ninputs n) 2 = Some a2) by (rewrite Hn; reflexivity).
  assert (Est : exists z, stash_or n = IOk z). { unfold stash_or, attr_i64_or. destruct (get_attr n "stash_type") as [a|] eqn:Ea; [destruct (Hst a eq_refl) as [z ->]; exists z; reflexivity|eexists; reflexivity]. } destruct Est as [z Est].
  assert (Eu : to_usize (Z.of_N groups) = groups) by (unfold to_usize; rewrite Z.mod_small by lia; lia).
  assert (Ec : gn_config n = IOk (groups, eps)). { unfold gn_config. rewrite (float_or_ok _ _ _ _ He). cbn [ibind]. rewrite Est. cbn [ibind]. rewrite Hg. cbn [attr_i64 ibind]. rewrite Eu. reflexivity. }
  split.
  - exists (aty x). split; [|exact FX]. unfold infer_group_norm. rewrite Ec.
    replace (forallb (fun kv : string * attr => mem_str (fst kv) ["epsilon"; "num_groups"; "stash_type"]%string) (nattrs n)) with true.
    2:{ symmetry. apply forallb_forall. intros [k v] Hin. cbn [fst]. pose proof (Ha k v Hin) as [<-|[<-|[<-|[]]]]; reflexivity. }
    cbn [negb iexpect ibind]. rewrite I1, (proj1 C1), (proj2 P1). cbn [ibind fst]. rewrite Gm. cbn [N.eqb negb]. rewrite andb_false_r. unfold first_input. rewrite Hn. reflexivity.
  - destruct (gn_forward_ok add sub mul div sqrt zero over num X nb c ds groups eps S B WX SX (proj1 Gr) Gm P1 P2) as (Y & EY & EO). exists Y. split; [|exact EO].
    unfold group_norm_run, gn_module. rewrite Ec. cbn [iexpect ibind fst snd]. rewrite (features_ok n a1 c I1 (Hk _ _ eq_refl)). cbn [ibind]. rewrite Gm. replace (groups =? 0) with false by lia. cbn [N.eqb negb orb].
    rewrite (param_ok value n 1 a1 c S I1 C1 P1). cbn [ibind]. rewrite (param_ok value n 2 a2 c B I2 C2 P2). cbn [ibind]. rewrite (forward_is e n X _ out HX Ho), EY. reflexivity.
Qed.
Print Assumptions C66_group_norm_partial.

(** InstanceNormalization.  Missing: rounding. *)
Theorem C66_instance_norm_partial : forall (T : Type) (add sub mul div : T -> T -> T) (sqrt : T -> T) (zero : T) (over : T -> N -> T) (num : N -> T)
    (value : arg -> option (tensor T)) (e : string -> option (tensor T)) (n : rnode) (X S B : tensor T) (c eps : N) (out : string),
  input_is e n X -> with_channels X c -> 0 < c -> constants_are value n c [S; B] -> output_name n out ->
  attrs_in n ["epsilon"]%string -> f32_attr n "epsilon" epsilon_bits eps ->
  (exists ty, infer_instance_norm n = IOk ty /\ Shapes_Spec.fits ty (tshape X)) /\
  exists Y, instance_norm_run add sub mul div sqrt zero over num value n e = Some (out, Y) /\ onnx_instance_norm add sub mul div sqrt zero over (num eps) X S B = Some Y.
Proof.
  intros T add sub mul div sqrt zero over num value e n X S B c eps out HX (nb & ds & SX) Hc HP Ho Ha He. pose proof HX as (x & ins & Hn & Hx & WX & FX).
  destruct HP as (x' & args & Hn' & Hargs & Hk); rewrite Hn in Hn'; injection Hn' as <- ->. apply args_cons in Hargs. destruct Hargs as (a1 & r1 & -> & (C1 & P1) & Hargs). apply args_cons in Hargs. destruct Hargs as (a2 & r2 & -> & (C2 & P2) & Hargs). apply args_nil in Hargs. subst r2.
  assert (I1 : nth_error (ninputs n) 1 = Some a1) by (rewrite Hn; reflexivity). assert (I2 : nth_error (ninputs n) 2 = Some a2) by (rewrite Hn; reflexivity).
  split.
  - exists (aty x). split; [|exact FX]. unfold infer_instance_norm.
    replace (forallb (fun kv : string * attr => mem_str (fst kv) ["epsilon"]%string) (nattrs n)) with true.
    2:{ symmetry. apply forallb_forall. intros [k v] Hin. cbn [fst]. pose proof (Ha k v Hin) as [<-|[]]; reflexivity. }
    cbn [negb]. unfold first_input. rewrite Hn. reflexivity.
  - destruct (gn_forward_ok add sub mul div sqrt zero over num X nb c ds c eps S B WX SX Hc (N.mod_same c ltac:(lia)) P1 P2) as (Y & EY & EO). exists Y.
    rewrite (instance_group add sub mul div sqrt zero over num X nb c ds (num eps) S B SX Hc) in EO. split; [|exact EO].
    unfold instance_norm_run, in_module. rewrite (float_or_ok _ _ _ _ He). cbn [ibind]. rewrite (features_ok n a1 c I1 (Hk _ _ eq_refl)). cbn [ibind].
    rewrite (param_ok value n 1 a1 c S I1 C1 P1). cbn [ibind]. rewrite (param_ok value n 2 a2 c B I2 C2 P2). cbn [ibind]. rewrite (forward_is e n X _ out HX Ho), EY. reflexivity.
Qed.
Print Assumptions C66_instance_norm_partial.

(** The type inferred for BatchNormalization fits the result: also where the number of
    channels comes from the scale. *)
Theorem C66_batch_norm_type : forall (T : Type) (value : arg -> option (tensor T)) (n : rnode) (x s : arg) (ins : list arg) (shape : list N) (c : N),
  ninputs n = x :: s :: ins -> (exists t, aty x = TensorT t) -> Shapes_Spec.fits (aty x) shape -> nth_error shape 1 = Some c ->
  Shapes_Spec.fits (aty s) [c] -> (forall v, value s = Some v -> tshape v = [c]) ->
  exists t, infer_batch_norm value n = IOk (TensorT t) /\ Shapes_Spec.fits (TensorT t) shape /\ (forall l, tt_shape t = Some l -> nth_error l 1 = Some None -> value s = None).
Proof.
  intros T value n x s ins shape c Hn (t & Ht) Fx Hc Fs Hv. unfold infer_batch_norm. rewrite Hn, Ht in *. cbn [Shapes_Spec.fits] in Fx. destruct Fx as (Fr & Fd).
  set (sh := match tt_shape t with Some l => l | None => repeat None (N.to_nat (tt_rank t)) end).
  assert (F : Shapes_Spec.fits_dims sh shape).
  { unfold sh. destruct (tt_shape t) as [l|]; [apply Fd; reflexivity|]. rewrite <- Fr, Nat2N.id. clear. unfold Shapes_Spec.fits_dims. induction shape; cbn; constructor; auto. }
  destruct shape as [|d0 [|c' ds]]; try discriminate. injection Hc as ->. clearbody sh. apply args_cons in F. destruct F as (o0 & l0 & -> & F0 & F1). apply args_cons in F1. destruct F1 as (o1 & l1 & -> & G0 & G1).
  destruct o1 as [c1|].
  - eexists. split; [reflexivity|]. split; [|intros l [= <-]; discriminate]. split; [exact Fr|]. intros l [= <-]. constructor; [exact F0|]. constructor; [exact G0|exact G1].
  - eexists. split; [reflexivity|]. split.
    + split; [exact Fr|]. cbn [tt_shape]. intros l [= <-]. constructor; [exact F0|]. constructor; [|exact G1].
      assert (FT : forall o, o = match aty s with TensorT ts => match tt_shape ts with Some (Some c :: _) => Some c | _ => None end | _ => None end -> o = None \/ o = Some c).
      { intros o ->. destruct (aty s) as [| | |ts]; auto. destruct (tt_shape ts) as [ls|] eqn:Els; auto. pose proof (proj2 Fs ls Els) as Fl. apply args_cons in Fl. destruct Fl as (o & r & -> & [->| ->] & _); auto. }
      destruct (value s) as [v|]; [rewrite (Hv v eq_refl); auto|apply FT; reflexivity].
    + cbn [tt_shape]. intros l [= <-]. cbn [nth_error]. destruct (value s) as [v|]; [rewrite (Hv v eq_refl); discriminate|reflexivity].
Qed.
Print Assumptions C66_batch_norm_type.

(** What is refused: a LayerNormalization over other axes than the one the scale has, and
    one whose scale is computed. *)
Theorem C66_refused : forall (T : Type) (value : arg -> option (tensor T)) (n : rnode) (x s : arg) (ins : list arg),
  ninputs n = x :: s :: ins ->
  (value s = None -> infer_layer_norm value n = IErr) /\
  (forall S axis, value s = Some S -> get_attr n "axis" = Some (AInt axis) -> axis <> (-1)%Z -> axis <> (Z.of_nat (length (tshape S)) - 1)%Z -> infer_layer_norm value n = IErr) /\
  (get_attr n "num_groups" = None -> f32_attr n "epsilon" epsilon_bits epsilon_bits -> get_attr n "stash_type" = None -> gn_config n = IErr) /\
  (forall g S, get_attr n "num_groups" = Some (AInt (Z.of_N g)) -> 0 < g < 2 ^ 63 -> f32_attr n "epsilon" epsilon_bits epsilon_bits -> get_attr n "stash_type" = None ->
     value s = Some S -> (exists c, tshape S = [c] /\ 0 < c /\ c mod g <> 0) -> infer_group_norm value n = IErr).
Proof.
  intros T value n x s ins Hn. split; [|split; [|split]].
  - intros Hv. unfold infer_layer_norm. rewrite Hn. cbn [nth_error]. rewrite Hv. reflexivity.
  - intros S axis Hv Ha H1 H2. unfold infer_layer_norm. rewrite Hn. cbn [nth_error]. rewrite Hv. destruct (negb _); [reflexivity|]. unfold attr_i64_or. rewrite Ha. cbn [attr_i64 ibind].
    replace (axis =? -1)%Z with false by lia. replace (axis =? Z.of_nat (length (tshape S)) - 1)%Z with false by lia. reflexivity.
  - intros Hg He Hs. unfold gn_config. rewrite (float_or_ok _ _ _ _ He). cbn [ibind]. unfold stash_or, attr_i64_or. rewrite Hs. cbn [ibind]. rewrite Hg. reflexivity.
  - intros g S Hg G He Hs Hv (c & Hc & C0 & Cm). unfold infer_group_norm. destruct (negb _); [reflexivity|]. unfold gn_config. rewrite (float_or_ok _ _ _ _ He). cbn [ibind]. unfold stash_or, attr_i64_or. rewrite Hs. cbn [ibind]. rewrite Hg. cbn [attr_i64 ibind iexpect].
    rewrite Hn. cbn [nth_error]. rewrite Hv, Hc. cbn [ibind fst]. assert (Eu : to_usize (Z.of_N g) = g) by (unfold to_usize; rewrite Z.mod_small by lia; lia). rewrite Eu. replace (0 <? g) with true by lia. replace (0 <? c) with true by lia. replace (c mod g =? 0) with false by lia. reflexivity.
Qed.
Print Assumptions C66_refused.

(** BatchNormalization without [epsilon] does not use 1e-5. *)
Definition n_args (l : list string) : list arg := map (fun x => cweight x [1]) l.
Definition b_node (attrs : list (string * attr)) : rnode := mkNode "BatchNormalization" "b" (carg "x" 2 None :: n_args ["s"; "b"; "m"; "v"]%string) [carg "y" 2 None] attrs.
Definition constants {T} (l : list (string * tensor T)) (a : arg) : option (tensor T) := match asrc a with VStatic _ => sget l (aname a) | _ => None end.
Definition one_value {T} (v : T) : tensor T := mkT [1] [v].
Theorem C66_epsilon_refuted : forall num : N -> R, num 0 = 0%R -> (0 < num epsilon_bits)%R ->
  exists (value : arg -> option (tensor R)) (e : string -> option (tensor R)) (n : rnode) (X S B M V Y Y' : tensor R),
    input_is e n X /\ with_channels X 1 /\ constants_are value n 1 [S; B; M; V] /\ f32_attr n "epsilon" epsilon_bits epsilon_bits /\
    batch_norm_run Rplus Rminus Rmult Rdiv sqrt num value n e = Some ("y"%string, Y) /\
    onnx_batch_norm Rplus Rminus Rmult Rdiv sqrt 0%R (num epsilon_bits) X S B M V = Some Y' /\ Y <> Y'.
Proof.
  intros num H0 H1.
  exists (constants [("s"%string, one_value 1%R); ("b"%string, one_value 0%R); ("m"%string, one_value 0%R); ("v"%string, one_value 1%R)]), (vars [("x"%string, mkT [1; 1] [1%R])]), (b_node []),
    (mkT [1; 1] [1%R]), (one_value 1%R), (one_value 0%R), (one_value 0%R), (one_value 1%R).
  eexists _, _. split; [|split; [|split; [|split; [|split; [|split]]]]].
  - eexists _, _. split; [reflexivity|]. split; [reflexivity|]. split; [reflexivity|]. split; [reflexivity|]. discriminate.
  - eexists _, _. reflexivity.
  - eexists _, _. split; [reflexivity|]. split; [repeat (constructor; [split; [split; [reflexivity|split; [reflexivity|eexists; reflexivity]]|split; reflexivity]|]); constructor|]. intros a r [= <- <-]. eexists. split; reflexivity.
  - reflexivity.
  - unfold batch_norm_run. cbn. reflexivity.
  - cbn. reflexivity.
  - rewrite H0. intros E. injection E as E. change ((1 - 0) / sqrt (1 + 0) * 1 + 0 = (1 - 0) / sqrt (1 + num epsilon_bits) * 1 + 0)%R in E. rewrite (Rplus_0_r 1), sqrt_1 in E.
    assert (S1 : (1 < sqrt (1 + num epsilon_bits))%R) by (rewrite <- sqrt_1 at 1; apply sqrt_lt_1; lra).
    replace ((1 - 0) / 1 * 1 + 0)%R with 1%R in E by field. replace ((1 - 0) / sqrt (1 + num epsilon_bits) * 1 + 0)%R with (/ sqrt (1 + num epsilon_bits))%R in E by (field; lra).
    apply Rinv_lt_contravar in S1; [|lra]. rewrite Rinv_1 in S1. lra.
Qed.
Print Assumptions C66_epsilon_refuted.
Example C66_epsilon_ex : exists num : N -> R, num 0 = 0%R /\ (0 < num epsilon_bits)%R.
Proof. exists (fun b => INR (N.to_nat (N.size b))). split; [reflexivity|]. vm_compute (N.to_nat _). apply lt_0_INR. lia. Qed.

Definition zbatch := batch_norm_run Z.add Z.sub Z.mul Z.div Z.sqrt Z.of_N.
Definition zlayer := layer_norm_run Z.add Z.sub Z.mul Z.div Z.sqrt 0%Z zover Z.of_N.
Definition zgroup := group_norm_run Z.add Z.sub Z.mul Z.div Z.sqrt 0%Z zover Z.of_N.
Definition zinstance := instance_norm_run Z.add Z.sub Z.mul Z.div Z.sqrt 0%Z zover Z.of_N.

(** [training_mode] is ignored: the given mean and variance are used. *)
Theorem C66_training_mode_refuted : exists (value : arg -> option (tensor Z)) (e : string -> option (tensor Z)) (n : rnode) (X S B M V Y Y' : tensor Z),
  input_is e n X /\ with_channels X 1 /\ constants_are value n 1 [S; B; M; V] /\ get_attr n "epsilon" = Some (AFloat 0) /\ get_attr n "training_mode" = Some (AInt 1) /\
  zbatch value n e = Some ("y"%string, Y) /\ onnx_batch_norm_training Z.add Z.sub Z.mul Z.div Z.sqrt 0%Z zover 0%Z X S B = Some Y' /\ Y <> Y'.
Proof.
  exists (constants [("s"%string, one_value 1%Z); ("b"%string, one_value 0%Z); ("m"%string, one_value 0%Z); ("v"%string, one_value 1%Z)]), (vars [("x"%string, mkT [2; 1] [10; 20]%Z)]),
    (b_node [("epsilon"%string, AFloat 0); ("training_mode"%string, AInt 1)]), (mkT [2; 1] [10; 20]%Z), (one_value 1%Z), (one_value 0%Z), (one_value 0%Z), (one_value 1%Z).
  eexists _, _. split; [|split; [|split; [|split; [|split; [|split; [|split]]]]]].
  - eexists _, _. split; [reflexivity|]. split; [reflexivity|]. split; [reflexivity|]. split; [reflexivity|]. discriminate.
  - eexists _, _. reflexivity.
  - eexists _, _. split; [reflexivity|]. split; [repeat (constructor; [split; [split; [reflexivity|split; [reflexivity|eexists; reflexivity]]|split; reflexivity]|]); constructor|]. intros a r [= <- <-]. eexists. split; reflexivity.
  - reflexivity.
  - reflexivity.
  - vm_compute. reflexivity.
  - vm_compute. reflexivity.
  - discriminate.
Qed.
Print Assumptions C66_training_mode_refuted.

(** LayerNormalization with [axis] 0 of a matrix and a scale with one axis is accepted, and
    only the rows are normalised. *)
Definition l_node (attrs : list (string * attr)) : rnode := mkNode "LayerNormalization" "l" [carg "x" 2 None; cweight "s" [2]] [carg "y" 2 None] attrs.
Theorem C66_layer_axis_refuted : exists (value : arg -> option (tensor Z)) (e : string -> option (tensor Z)) (n : rnode) (X S Y Y' : tensor Z),
  input_is e n X /\ constants_are value n 2 [S] /\ get_attr n "axis" = Some (AInt 0) /\ f32_attr n "epsilon" epsilon_bits 0 /\ bshape (tshape X) (tshape S) = Some (tshape X) /\
  (exists ty, infer_layer_norm value n = IOk ty) /\ zlayer value n e = Some ("y"%string, Y) /\
  onnx_layer_norm Z.add Z.sub Z.mul Z.div Z.sqrt 0%Z zover 0 0%Z X S None = Some Y' /\ Y <> Y'.
Proof.
  exists (constants [("s"%string, mkT [2] [1; 1]%Z)]), (vars [("x"%string, mkT [2; 2] [0; 2; 20; 22]%Z)]), (l_node [("axis"%string, AInt 0); ("epsilon"%string, AFloat 0)]), (mkT [2; 2] [0; 2; 20; 22]%Z), (mkT [2] [1; 1]%Z).
  eexists _, _. split; [|split; [|split; [|split; [|split; [|split; [|split; [|split]]]]]]].
  - eexists _, _. split; [reflexivity|]. split; [reflexivity|]. split; [reflexivity|]. split; [reflexivity|]. discriminate.
  - eexists _, _. split; [reflexivity|]. split; [repeat (constructor; [split; [split; [reflexivity|split; [reflexivity|eexists; reflexivity]]|split; reflexivity]|]); constructor|]. intros a r [= <- <-]. eexists. split; reflexivity.
  - reflexivity.
  - reflexivity.
  - reflexivity.
  - eexists. reflexivity.
  - vm_compute. reflexivity.
  - vm_compute. reflexivity.
  - discriminate.
Qed.
Print Assumptions C66_layer_axis_refuted.

(** GroupNormalization of version 18 has a scale for each group: accepted, and the code panics. *)
Definition g_node (c : N) (attrs : list (string * attr)) : rnode := mkNode "GroupNormalization" "g" [carg "x" 3 None; cweight "s" [c]; cweight "b" [c]] [carg "y" 3 None] attrs.
Theorem C66_group_scale_refuted : exists (value : arg -> option (tensor Z)) (e : string -> option (tensor Z)) (n : rnode) (X S B : tensor Z) (groups : N),
  input_is e n X /\ with_channels X 4 /\ constants_are value n groups [S; B] /\ get_attr n "num_groups" = Some (AInt (Z.of_N groups)) /\ groups = 2 /\
  (exists ty, infer_group_norm value n = IOk ty) /\ (exists m, gn_module value n = IOk m) /\ zgroup value n e = None.
Proof.
  exists (constants [("s"%string, mkT [2] [1; 1]%Z); ("b"%string, mkT [2] [0; 1]%Z)]), (vars [("x"%string, some_ints [1; 4; 2] 0)]), (g_node 2 [("num_groups"%string, AInt 2); ("epsilon"%string, AFloat 1)]), (some_ints [1; 4; 2] 0), (mkT [2] [1; 1]%Z), (mkT [2] [0; 1]%Z), 2.
  split; [|split; [|split; [|split; [|split; [|split; [|split]]]]]].
  - eexists _, _. split; [reflexivity|]. split; [reflexivity|]. split; [reflexivity|]. split; [reflexivity|]. discriminate.
  - eexists _, _. reflexivity.
  - eexists _, _. split; [reflexivity|]. split; [repeat (constructor; [split; [split; [reflexivity|split; [reflexivity|eexists; reflexivity]]|split; reflexivity]|]); constructor|]. intros a r [= <- <-]. eexists. split; reflexivity.
  - reflexivity.
  - reflexivity.
  - eexists. reflexivity.
  - eexists. reflexivity.
  - vm_compute. reflexivity.
Qed.
Print Assumptions C66_group_scale_refuted.

(** * The hypotheses are met *)
Ltac input_by := eexists _, _; split; [reflexivity|]; split; [reflexivity|]; split; [reflexivity|]; split; [reflexivity|discriminate].
Ltac constants_by := eexists _, _; split; [reflexivity|]; split; [repeat (constructor; [split; [split; [reflexivity|split; [reflexivity|eexists; reflexivity]]|split; reflexivity]|]); constructor|intros a r [= <- <-]; eexists; split; reflexivity].
Definition b2_node (src : string -> arg) : rnode := mkNode "BatchNormalization" "b" (carg "x" 3 None :: map src ["s"; "b"; "m"; "v"]%string) [carg "y" 3 None] [("epsilon"%string, AFloat 0)].
Definition b2_params : list (string * tensor Z) := [("s"%string, mkT [2] [2; 3]%Z); ("b"%string, mkT [2] [1; 5]%Z); ("m"%string, mkT [2] [1; 0]%Z); ("v"%string, mkT [2] [4; 1]%Z)].
Definition b2_x : tensor Z := mkT [1; 2; 2] [5; 7; 4; 6]%Z.
Example C66_batch_norm_ex :
  let n1 := b2_node (fun a => cweight a [2]) in let n2 := b2_node (fun a => carg a 1 None) in
  (input_is (vars [("x"%string, b2_x)]) n1 b2_x /\ with_channels b2_x 2 /\ constants_are (constants b2_params) n1 2 (map snd b2_params) /\ zbatch (constants b2_params) n1 (vars [("x"%string, b2_x)]) = Some ("y"%string, mkT [1; 2; 2] [5; 7; 17; 23]%Z)) /\
  (input_is (vars (("x"%string, b2_x) :: b2_params)) n2 b2_x /\ computed_are (constants b2_params) (vars (("x"%string, b2_x) :: b2_params)) n2 2 (map snd b2_params) /\ zbatch (constants b2_params) n2 (vars (("x"%string, b2_x) :: b2_params)) = Some ("y"%string, mkT [1; 2; 2] [5; 7; 17; 23]%Z)).
Proof.
  split.
  - split; [input_by|]. split; [eexists _, _; reflexivity|]. split; [constants_by|]. vm_compute. reflexivity.
  - split; [input_by|]. split; [|vm_compute; reflexivity]. eexists _, _. split; [reflexivity|]. split; [repeat (constructor; [split; [reflexivity|split; reflexivity]|]); constructor|]. eexists. split; [left; reflexivity|reflexivity].
Qed.
Example C66_layer_norm_ex : let c := [("s"%string, mkT [2] [2; 3]%Z)] in let x := mkT [2; 2] [0; 2; 20; 40]%Z in
  input_is (vars [("x"%string, x)]) (l_node [("epsilon"%string, AFloat 0)]) x /\ constants_are (constants c) (l_node [("epsilon"%string, AFloat 0)]) 2 [mkT [2] [2; 3]%Z] /\
  attrs_in (l_node [("epsilon"%string, AFloat 0)]) ["axis"; "epsilon"; "stash_type"]%string /\
  zlayer (constants c) (l_node [("epsilon"%string, AFloat 0)]) (vars [("x"%string, x)]) = Some ("y"%string, mkT [2; 2] [-2; 3; -2; 3]%Z).
Proof. split; [input_by|]. split; [constants_by|]. split; [intros key v [[= <- <-]|[]]; cbn; tauto|]. vm_compute. reflexivity. Qed.
Example C66_group_norm_ex : let c := [("s"%string, mkT [4] [1; 2; 3; 4]%Z); ("b"%string, mkT [4] [0; 10; 20; 30]%Z)] in let x := mkT [1; 4; 1] [0; 2; 30; 50]%Z in
  let n := g_node 4 [("num_groups"%string, AInt 2); ("epsilon"%string, AFloat 0)] in
  input_is (vars [("x"%string, x)]) n x /\ with_channels x 4 /\ constants_are (constants c) n 4 (map snd c) /\ attrs_in n ["epsilon"; "num_groups"; "stash_type"]%string /\
  zgroup (constants c) n (vars [("x"%string, x)]) = Some ("y"%string, mkT [1; 4; 1] [-1; 12; 17; 34]%Z).
Proof. split; [input_by|]. split; [eexists _, _; reflexivity|]. split; [constants_by|]. split; [intros key v [[= <- <-]|[[= <- <-]|[]]]; cbn; tauto|]. vm_compute. reflexivity. Qed.
Example C66_instance_norm_ex : let c := [("s"%string, mkT [2] [1; 2]%Z); ("b"%string, mkT [2] [0; 10]%Z)] in let x := mkT [1; 2; 2] [0; 2; 30; 50]%Z in
  let n := mkNode "InstanceNormalization" "i" [carg "x" 3 None; cweight "s" [2]; cweight "b" [2]] [carg "y" 3 None] [("epsilon"%string, AFloat 0)] in
  input_is (vars [("x"%string, x)]) n x /\ with_channels x 2 /\ constants_are (constants c) n 2 (map snd c) /\ attrs_in n ["epsilon"]%string /\
  zinstance (constants c) n (vars [("x"%string, x)]) = Some ("y"%string, mkT [1; 2; 2] [-1; 1; 8; 12]%Z).
Proof. split; [input_by|]. split; [eexists _, _; reflexivity|]. split; [constants_by|]. split; [intros key v [[= <- <-]|[]]; cbn; tauto|]. vm_compute. reflexivity. Qed.
