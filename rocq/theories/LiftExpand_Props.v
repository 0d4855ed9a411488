(** C84: Expand of a scalar. *)
From Coq Require Import Lia ZArith Bool.
From Verif Require Import IR_Model ShapeOps_Model AxisOps_Model Tensor_Spec Tensor_Proofs BinOps_Spec TensorRun_Model Masks_Proofs Lift_Spec Lift_Model LiftExpand_Model.
Local Open Scope N_scope.
Local Open Scope string_scope.
Local Open Scope list_scope.

Lemma expand_one s d (v : elt) : exists t, b_expand (map Z.of_N (s ++ [d])) (mkT [1] [v]) = Some t /\ filled_with (s ++ [d]) v t.
Proof.
  destruct (tab_const (s ++ [d]) v) as (t & Ht & Hw & Hs & Hg). exists t. split; [|split; [exact Hw|split; assumption]].
  unfold b_expand. cbn [tshape length]. rewrite map_length, app_length. cbn [length].
  replace (length s + 1 - 1)%nat with (length s) by lia.
  replace (1 <=? length s + 1)%nat with true by (symmetry; apply Nat.leb_le; lia).
  rewrite map_app. cbn [map]. 
  assert (F : firstn (length s) (map Z.of_N s ++ [Z.of_N d]) = map Z.of_N s).
  { rewrite <- (map_length Z.of_N s), firstn_app, Nat.sub_diag, firstn_all. cbn. apply app_nil_r. }
  assert (K : skipn (length s) (map Z.of_N s ++ [Z.of_N d]) = [Z.of_N d]).
  { rewrite <- (map_length Z.of_N s), skipn_app, Nat.sub_diag, skipn_all. reflexivity. }
  rewrite F, K.
  assert (P : forallb (fun v => 0 <=? v)%Z (map Z.of_N s) = true).
  { apply forallb_forall. intros z Hz. apply in_map_iff in Hz. destruct Hz as (n & <- & _). apply Z.leb_le. lia. }
  rewrite P. cbn [andb combine mapo fst snd].
  assert (E : expand_dim 1 (Z.of_N d) = Some d).
  { unfold expand_dim. destruct (Z.eqb_spec (Z.of_N d) (-1)); [lia|]. destruct (Z.ltb_spec (Z.of_N d) 0); [lia|].
    rewrite N2Z.id. cbn. rewrite orb_true_r. reflexivity. }
  rewrite E. cbn [obind]. rewrite map_map. rewrite (map_ext _ (fun x => x)) by (intros; apply N2Z.id). rewrite map_id.
  rewrite <- Ht. apply tab_ext. intros idx Hi.
  assert (L : length idx = length (s ++ [d])) by (apply Forall2_length in Hi; exact Hi).
  rewrite app_length in L. cbn [length] in L.
  assert (Q : exists i, skipn (length s) idx = [i]).
  { pose proof (skipn_length (length s) idx) as M. destruct (skipn (length s) idx) as [|i [|j r]]; cbn in M; try lia. now exists i. }
  destruct Q as [i ->]. reflexivity.
Qed.

(** The property: for every scalar and every shape asked for, the program has the
    tensor of that shape filled with the scalar.  Proved for native scalars;
    missing: device scalars, refuted below. *)
Theorem C84_native_partial : forall x d v s, x = ScalarNative d -> s <> [] ->
  exists r t, expand_scalar x v (map Z.of_N s) = Gives r /\ held r = Some t /\ filled_with s v t.
Proof.
  intros x d v s -> Hs. destruct (exists_last Hs) as (s0 & k & ->).
  destruct (expand_one s0 k v) as (t & Ht & Hf). exists (RTensor t), t.
  unfold expand_scalar. cbn [gen_expand_scalar is_element]. rewrite Ht. repeat split; try reflexivity; apply Hf.
Qed.
Print Assumptions C84_native_partial.

(** Import accepts a scalar of either kind and gives the result the shape asked
    for. *)
Theorem C84_accepted : forall value n x q rest d v l,
  ninputs n = x :: q :: rest -> aty x = ScalarNative d \/ aty x = ScalarTensor d ->
  aty q = TensorT (mkTT I64 1 None) -> value q = Some v -> cv_ints v = Some (map Z.of_N l) ->
  Forall (fun k => k < 2 ^ 63) l ->
  infer_expand value n = IOk (TensorT (mkTT d (N.of_nat (length l)) (Some (map Some l)))).
Proof.
  intros value n x q rest d v l Hi Hx Hq Hv Hl Hr. unfold infer_expand. rewrite Hi, Hq. cbn. rewrite Hv, Hl. cbn [ibind].
  assert (E : map (fun z => Some (to_usize z)) (map Z.of_N l) = map Some l).
  { rewrite map_map. apply map_ext_in. intros k Hk. rewrite Forall_forall in Hr. specialize (Hr k Hk). f_equal.
    unfold to_usize. rewrite Z.mod_small; [apply N2Z.id|]. change (2 ^ 63) with 9223372036854775808 in Hr. lia. }
  destruct Hx as [-> | ->]; cbn; rewrite E, map_length; reflexivity.
Qed.
Print Assumptions C84_accepted.

(** A scalar kept on the device: the source does not compile, whatever the shape. *)
Lemma device_fail : forall d v shape, expand_scalar (ScalarTensor d) v shape = NoCompile.
Proof. reflexivity. Qed.
Theorem C84_refuted : exists x d v s, gen_expand_scalar x = Some d /\ in_dtype d v /\ s <> [] /\
  forall r, expand_scalar x v (map Z.of_N s) <> Gives r.
Proof.
  exists (ScalarTensor F32), F32, (EF SpecFloat.S754_nan), [2; 3]. split; [reflexivity|]. split; [now eexists|].
  split; [discriminate|]. intros r. rewrite device_fail. discriminate.
Qed.
Print Assumptions C84_refuted.

(** ** Cases *)
Example C84_case : expand_scalar (ScalarNative I64) (EI 5) [2; 1]%Z = Gives (RTensor (mkT [2; 1] [EI 5; EI 5])).
Proof. reflexivity. Qed.
Example C84_case_accepted : infer_expand (fun _ => Some (mkC [2] I64 (Some [2; 3]%Z)))
  (mkNode "Expand" "e" [mkArg "x" (ScalarTensor F32) VDynamic; mkArg "q" (TensorT (mkTT I64 1 None)) VDynamic]
     [mkArg "y" (TensorT (mkTT F32 2 None)) VDynamic] []) = IOk (TensorT (mkTT F32 2 (Some [Some 2; Some 3]))).
Proof. reflexivity. Qed.
