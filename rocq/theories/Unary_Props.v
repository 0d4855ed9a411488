(** Element-wise operators with one input compute what ONNX prescribes (C67). *)
From Coq Require Import Reals Lra Lia ZifyBool ZifyNat ZifyN.
From Flocq Require Import Core BinarySingleNaN.
From Verif Require Import Index_Model AxisOps_Model Unary_Nodes Norm_Proofs Norm_Model Float_Model Infer_Model Conv_Final Conv_Props Linear_Model Linear_Proofs.
Import Rdefinitions Conv_Spec Unary_Spec Tensor_Spec.
Local Open Scope R_scope.

(** The first input is a tensor on the device, or a number of the host. *)
Definition on_device (e : string -> option uval) (n : rnode) (ty : argty) (X : tensor R) : Prop :=
  exists i r, ninputs n = i :: r /\ aty i = ty /\ e (aname i) = Some (Dev X) /\ twf X /\ match ty with TensorT _ | ScalarTensor _ => True | _ => False end.
Definition on_host (e : string -> option uval) (n : rnode) (ty : argty) (x : R) : Prop :=
  exists i r d, ninputs n = i :: r /\ aty i = ty /\ ty = ScalarNative d /\ e (aname i) = Some (Nat_ x).
(** The attributes are those of the operator. *)
Definition attributes_ok (n : rnode) : Prop :=
  floats_in n (float_attrs (ntype n)) \/ ntype n = "Gelu"%string /\ get_attr n "approximate" = Some (AString "none").

Lemma infer_ok n i r : ninputs n = i :: r -> floats_in n (float_attrs (ntype n)) \/ ntype n = "Gelu"%string -> infer_unary n = IOk (aty i).
Proof.
  intros Hn Ha. unfold infer_unary, first_input. rewrite Hn. cbn [ibind].
  assert (E : mem_str (ntype n) checked && negb (forallb (fun kv => mem_str (fst kv) (float_attrs (ntype n))) (nattrs n)) = false).
  { destruct Ha as [Ha|Ha]; [|rewrite Ha; reflexivity]. replace (forallb _ _) with true; [apply andb_false_r|]. symmetry. apply forallb_forall. intros [k v] Hin. destruct (Ha k v Hin) as [H _]. cbn [fst].
    unfold mem_str. apply existsb_exists. exists k. split; [exact H|apply String.eqb_refl]. }
  rewrite E. reflexivity.
Qed.

(** The 37 operators of [unary_ops] on tensors: the type is kept, and each element of the result is
    what ONNX says of the element at its place.  Missing: Gelu with [approximate] "tanh" (wrong,
    below), Selu (below), rounding. *)
Theorem C67_tensor_partial : forall (num : N -> R) (erf : R -> R) (e : string -> option uval) (n : rnode) (ty : argty) (X : tensor R) (out : string),
  on_device e n ty X -> In (ntype n) unary_ops -> attributes_ok n -> output_name n out ->
  infer_unary n = IOk ty /\
  exists Y, unary_run num erf n e = Some (out, Dev Y) /\ twf Y /\ tshape Y = tshape X /\
    forall idx x y, valid_idx (tshape X) idx -> get X idx = Some x -> onnx_fn erf (given num n) (ntype n) x y -> get Y idx = Some y.
Proof.
  intros num erf e n ty X out (i & r & Hn & Ht & He & W & Hty) Hin Ha (o & os & Ho & <-).
  assert (Ha' : floats_in n (float_attrs (ntype n)) \/ ntype n = "Gelu"%string) by (destruct Ha as [Ha|(Ha & _)]; auto).
  split; [rewrite <- Ht; exact (infer_ok n i r Hn Ha')|].
  destruct (gen_ok num erf n i r e X Hn He W) as (c & g & Hc & Hx & Hg); [intros k E; rewrite <- Ht, E in Hty; exact Hty|intros d E; rewrite <- Ht, E in Hty; exact Hty|exact Hin|exact Ha'|].
  destruct (bmap_elementwise g X W) as (WY & SY & HY). exists (bmap g X). split; [unfold unary_run; rewrite Hc, Ho, Hx; reflexivity|]. split; [exact WY|]. split; [exact SY|].
  intros idx x y V G F. rewrite (HY idx x V G). f_equal. exact (Hg x y F).
Qed.
Print Assumptions C67_tensor_partial.

(** Selu with the default parameters, left out or written.  Missing: other parameters, which are
    refused (unless within a millionth of these); rounding. *)
Theorem C67_selu_partial : forall (num : N -> R) (erf : R -> R) (e : string -> option uval) (n : rnode) (ty : argty) (X : tensor R) (out : string),
  on_device e n ty X -> ntype n = "Selu"%string -> floats_in n ["alpha"; "gamma"]%string -> output_name n out ->
  infer_unary n = IOk ty /\
  (given num n "alpha" selu_alpha = selu_alpha -> given num n "gamma" selu_gamma = selu_gamma ->
   exists Y, unary_run num erf n e = Some (out, Dev Y) /\ each_element (selu (given num n "alpha" selu_alpha) (given num n "gamma" selu_gamma)) X Y) /\
  (/ 1000000 < Rabs (given num n "alpha" selu_alpha - selu_alpha) \/ / 1000000 < Rabs (given num n "gamma" selu_gamma - selu_gamma) -> gen_unary num n = IPanic).
Proof.
  intros num erf e n ty X out (i & r & Hn & Ht & He & W & Hty) Hop Ha (o & os & Ho & <-).
  assert (G : gen_unary num n = (if Rlt_dec (/ 1000000) (Rabs (given num n "alpha" selu_alpha - selu_alpha)) then IPanic
      else if Rlt_dec (/ 1000000) (Rabs (given num n "gamma" selu_gamma - selu_gamma)) then IPanic else IOk (Call "selu" [] (aname i)))).
  { unfold gen_unary. rewrite Hn, Hop. cbn [sget methods functions with_alpha String.eqb Ascii.eqb Bool.eqb]. rewrite !(real_or_ok num n _ _ _ Ha). reflexivity. }
  split; [rewrite <- Ht; apply (infer_ok n i r Hn); left; rewrite Hop; exact Ha|]. split.
  - intros E1 E2. exists (bmap (fun x => selu_gamma * elu selu_alpha x) X). split.
    + unfold unary_run. rewrite G, E1, E2, !Rminus_diag_eq, Rabs_R0 by reflexivity. destruct (Rlt_dec (/ 1000000) 0); [lra|]. rewrite Ho. unfold uexec. rewrite He. reflexivity.
    + rewrite E1, E2. destruct (bmap_elementwise (fun x => selu_gamma * elu selu_alpha x) X W) as (A & B & C). split; [exact A|]. split; [exact B|]. intros idx a V GX. rewrite (C idx a V GX). f_equal. apply selu_ok.
  - intros H. rewrite G. destruct (Rlt_dec (/ 1000000) (Rabs (given num n "alpha" selu_alpha - selu_alpha))); [reflexivity|]. destruct H as [H|H]; [contradiction|].
    destruct (Rlt_dec (/ 1000000) (Rabs (given num n "gamma" selu_gamma - selu_gamma))); [reflexivity|contradiction].
Qed.
Print Assumptions C67_selu_partial.

(** A Gelu asking for the tanh approximation gets the exact formula. *)
Theorem C67_gelu_tanh_refuted : forall (num : N -> R) (erf : R -> R) (x : R), gelu_tanh x <> / 2 * x * (1 + erf (x / sqrt 2)) ->
  exists n e Y, get_attr n "approximate" = Some (AString "tanh") /\ on_device e n (TensorT (mkTT F32 1 None)) (mkT [1%N] [x]) /\
    unary_run num erf n e = Some ("y"%string, Dev Y) /\ get Y [0%N] <> Some (gelu_tanh x).
Proof.
  intros num erf x H. set (n := mkNode "Gelu" "g" [carg "x" 1 None] [carg "y" 1 None] [("approximate"%string, AString "tanh")]).
  exists n, (fun _ => Some (Dev (mkT [1%N] [x]))), (bmap (fun x => x * (erf (x / sqrt 2) + 1) / 2) (mkT [1%N] [x])).
  split; [reflexivity|]. split; [exists (carg "x" 1 None), []; repeat split|]. split; [reflexivity|]. intros E. unfold get, bmap in E. cbn [tshape tdata offset prodN map N.to_nat] in E. change (nth_error [x * (erf (x / sqrt 2) + 1) / 2] 0 = Some (gelu_tanh x)) in E. cbn [nth_error] in E. injection E as E. apply H. rewrite <- E. lra.
Qed.
Print Assumptions C67_gelu_tanh_refuted.

(** ** Numbers of the host *)
Definition host_ops : list string :=
  ["Abs"; "Acos"; "Acosh"; "Asin"; "Asinh"; "Atan"; "Atanh"; "Ceil"; "Cos"; "Cosh"; "Exp"; "Floor"; "Reciprocal"; "Sin"; "Sinh"; "Sqrt"; "Tan"; "Tanh"; "Neg"; "Identity"]%string.
(** The operators whose code is a method of [f32] or [f64] too.  Missing: the others (below). *)
Theorem C67_native_partial : forall (num : N -> R) (erf : R -> R) (e : string -> option uval) (n : rnode) (ty : argty) (x : R) (out : string),
  on_host e n ty x -> In (ntype n) host_ops -> floats_in n [] -> output_name n out ->
  infer_unary n = IOk ty /\ exists v, unary_run num erf n e = Some (out, Nat_ v) /\ forall y, onnx_fn erf (given num n) (ntype n) x y -> v = y.
Proof.
  intros num erf e n ty x out (i & r & d & Hn & Ht & -> & He) Hin Ha (o & os & Ho & <-). split.
  { rewrite <- Ht. apply (infer_ok n i r Hn). left. replace (float_attrs (ntype n)) with (@nil string); [exact Ha|]. unfold host_ops in Hin. cbn [In] in Hin. repeat (destruct Hin as [Hin|Hin]; [rewrite <- Hin; reflexivity|]). destruct Hin. }
  (* the same function as on a tensor of one element *)
  destruct (gen_ok num erf (mkNode (ntype n) (nname n) [mkArg (aname i) (TensorT (mkTT F32 0 None)) VDynamic] [] (nattrs n)) (mkArg (aname i) (TensorT (mkTT F32 0 None)) VDynamic) [] (fun _ => Some (Dev (mkT [] [x]))) (mkT [] [x]))
    as (c & g & Hc & Hx & Hg); [reflexivity|reflexivity|reflexivity|discriminate|discriminate| | |].
  { cbn [ntype]. revert Hin. unfold host_ops, unary_ops. cbn [In]. tauto. }
  { left. cbn [ntype nattrs]. intros k v H. destruct (Ha k v H) as [[] _]. }
  unfold computes in Hg. cbn [ntype] in Hg. change (given num (mkNode (ntype n) _ _ _ (nattrs n))) with (given num n) in Hg.
  assert (E : unary_run num erf n e = Some (aname o, Nat_ (g x))).
  { unfold unary_run, gen_unary in *. rewrite Hn. cbn [ninputs ntype aname aty] in Hc. unfold host_ops in Hin. cbn [In] in Hin.
    repeat (destruct Hin as [Hin|Hin]; [rewrite <- Hin in *; cbn [sget methods functions with_alpha String.eqb Ascii.eqb Bool.eqb] in *; rewrite ?Ht; injection Hc as <-; cbn in Hx; injection Hx as Hx; rewrite Ho; cbn [uexec]; rewrite He; cbn; rewrite <- Hx; reflexivity|]). destruct Hin. }
  exists (g x). split; [exact E|]. intros y F. exact (Hg x y F).
Qed.
Print Assumptions C67_native_partial.

(** The code for the others does not compile: there is no such method, or the function is one on
    tensors. *)
Theorem C67_native_rejected : forall (num : N -> R) (erf : R -> R) (e : string -> option uval) (n : rnode) (ty : argty) (x : R),
  on_host e n ty x -> In (ntype n) unary_ops -> ~ In (ntype n) host_ops -> ntype n <> "Round"%string -> unary_run num erf n e = None.
Proof.
  intros num erf e n ty x (i & r & d & Hn & Ht & -> & He) Hin Hno Hr. unfold unary_run. destruct (gen_unary num n) as [c| |] eqn:G; [|reflexivity|reflexivity]. destruct (noutputs n) as [|o os]; [reflexivity|].
  unfold gen_unary in G. rewrite Hn in G. unfold unary_ops in Hin. cbn [In] in Hin. unfold host_ops in Hno. cbn [In] in Hno.
  repeat (destruct Hin as [Hin|Hin]; [rewrite <- Hin in *; cbn [sget methods functions with_alpha String.eqb Ascii.eqb Bool.eqb] in G; try (exfalso; apply Hno; tauto); try contradiction|]); [..|destruct Hin].
  all: try (exfalso; apply Hr; reflexivity).
  all: try (injection G as <-; cbn [uexec]; rewrite He; reflexivity).
  all: unfold real_or in G.
  all: repeat match type of G with context [get_attr ?m ?k] => destruct (get_attr m k) as [[]|]; cbn [ibind] in G; try discriminate G end.
  all: try (injection G as <-; try match goal with |- context [Req_EM_T ?a 1] => destruct (Req_EM_T a 1) end; cbn [uexec]; rewrite He; reflexivity).
Qed.
Print Assumptions C67_native_rejected.

Lemma znearest_half : ZnearestA (/ 2) = 1%Z.
Proof.
  unfold ZnearestA, Znearest. assert (F : Zfloor (/ 2) = 0%Z) by (apply Zfloor_imp; cbn; lra). assert (C : Zceil (/ 2) = 1%Z) by (apply Zceil_imp; cbn; lra). rewrite F, C. cbn. rewrite Rminus_0_r, Rcompare_Eq by reflexivity. reflexivity.
Qed.
(** Round of a number of the host takes ties away from zero, where ONNX takes the even neighbour. *)
Theorem C67_native_round_refuted : exists num erf e n y, on_host e n (ScalarNative F32) (/ 2) /\ ntype n = "Round"%string /\ floats_in n [] /\
  onnx_fn erf (given num n) "Round" (/ 2) y /\ unary_run num erf n e <> Some ("y"%string, Nat_ y) /\ unary_run num erf n e = Some ("y"%string, Nat_ (IZR 1)).
Proof.
  set (n := mkNode "Round" "r" [mkArg "x" (ScalarNative F32) VDynamic] [mkArg "y" (ScalarNative F32) VDynamic] []).
  assert (E : unary_run (fun _ => 0) (fun x => x) n (fun _ => Some (Nat_ (/ 2))) = Some ("y"%string, Nat_ (IZR 1))) by (cbn; rewrite znearest_half; reflexivity).
  exists (fun _ => 0), (fun x => x), (fun _ => Some (Nat_ (/ 2))), n, (IZR 0).
  split; [eexists _, _, F32; repeat split|]. split; [reflexivity|]. split; [intros k v []|]. split; [apply F_round; split; [unfold Rabs; destruct (Rcase_abs _); lra|reflexivity]|].
  split; [|exact E]. rewrite E. intros [= H]. lra.
Qed.
Print Assumptions C67_native_round_refuted.

(** ** Clip *)
(** The bound is an attribute, or the first element of a constant, or absent. *)
Definition bound_is (num : N -> R) (value : arg -> option (tensor R)) (n : rnode) (key : string) (k : nat) (b : option R) : Prop :=
  match get_attr n key with
  | Some (AFloat bits) => b = Some (num bits)
  | Some _ => False
  | None => match nth_error (ninputs n) k with
      | None => b = None
      | Some a => asrc a = VOptional /\ b = None \/ asrc a <> VOptional /\ exists t v r, value a = Some t /\ tdata t = v :: r /\ b = Some v
      end
  end.
Lemma bound_ok num value n key k b : bound_is num value n key k b -> clip_bound num value n key k = IOk (option_map Static b).
Proof.
  unfold bound_is, clip_bound, clip_input. destruct (get_attr n key) as [[]|]; try contradiction; [intros ->; reflexivity|].
  destruct (nth_error (ninputs n) k) as [a|]; [|intros ->; reflexivity]. intros [(-> & ->)|(Ha & t & v & r & Hv & Ht & ->)]; [reflexivity|]. rewrite Hv, Ht. destruct (asrc a); [reflexivity..|congruence].
Qed.
(** Clip with a bound at least.  Missing: no bound, bounds that are computed (both refused: below),
    bounds out of order, rounding. *)
Theorem C67_clip_partial : forall (num : N -> R) (value : arg -> option (tensor R)) (e : string -> option (tensor R)) (n : rnode) (X : tensor R) (lo hi : option R) (out : string),
  input_is e n X -> output_name n out -> bound_is num value n "min" 1 lo -> bound_is num value n "max" 2 hi ->
  (lo <> None \/ hi <> None) -> (forall l h, lo = Some l -> hi = Some h -> l <= h) ->
  exists Y, clip_run num value n e = Some (out, Y) /\ each_element (onnx_clip lo hi) X Y.
Proof.
  intros num value e n X lo hi out HX Ho Hl Hh Hne Hle. pose proof HX as (x & ins & _ & _ & W & _).
  assert (E : exists f, clip_code num value n = IOk f /\ forall v, f v = onnx_clip lo hi v).
  { unfold clip_code, clip_config. rewrite (bound_ok _ _ _ _ _ _ Hl), (bound_ok _ _ _ _ _ _ Hh). destruct lo as [l|], hi as [h|]; cbn.
    - eexists. split; [reflexivity|]. intros v. unfold clamp, onnx_clip, Rmax, Rmin. specialize (Hle l h eq_refl eq_refl).
      destruct (Rle_dec v h), (Rlt_dec v l); repeat (destruct (Rle_dec _ _) || destruct (Rlt_dec _ _)); lra.
    - eexists. split; [reflexivity|]. intros v. unfold onnx_clip, Rmax. destruct (Rle_dec l v), (Rlt_dec v l); lra.
    - eexists. split; [reflexivity|]. intros v. unfold onnx_clip, Rmin. destruct (Rle_dec h v), (Rlt_dec h v); lra.
    - destruct Hne as [H|H]; congruence. }
  destruct E as (f & Ef & Hf). exists (bmap f X). split; [unfold clip_run; rewrite Ef, (forward_is e n X _ out HX Ho); reflexivity|].
  destruct (bmap_elementwise f X W) as (A & B & C). split; [exact A|]. split; [exact B|]. intros idx a V G. rewrite (C idx a V G), Hf. reflexivity.
Qed.
Print Assumptions C67_clip_partial.

(** A Clip without bounds, which ONNX makes the identity, and one with a computed bound are refused. *)
Theorem C67_clip_refused : forall (num : N -> R) (value : arg -> option (tensor R)) (n : rnode),
  (bound_is num value n "min" 1 None -> bound_is num value n "max" 2 None -> clip_config num value n = IErr) /\
  (forall key k a, (key, k) = ("min"%string, 1%nat) \/ (key, k) = ("max"%string, 2%nat) -> get_attr n key = None -> nth_error (ninputs n) k = Some a -> asrc a <> VOptional -> value a = None ->
    forall f, clip_code num value n <> IOk f).
Proof.
  intros num value n. split.
  - intros Hl Hh. unfold clip_config. rewrite (bound_ok _ _ _ _ _ _ Hl), (bound_ok _ _ _ _ _ _ Hh). reflexivity.
  - intros key k a Hk Hg Ha Hs Hv f. assert (E : clip_bound num value n key k = IOk (Some (Runtime (aname a) k))).
    { unfold clip_bound, clip_input. rewrite Hg, Ha, Hv. destruct (asrc a); [reflexivity..|congruence]. }
    unfold clip_code, clip_config. destruct Hk as [[= -> ->]|[= -> ->]]; rewrite E; cbn [ibind].
    + destruct (clip_bound num value n "max" 2) as [[hi|]| |]; cbn; discriminate.
    + destruct (clip_bound num value n "min" 1) as [[[]|]| |]; cbn; discriminate.
Qed.
Print Assumptions C67_clip_refused.

(** ** PRelu *)
(** One slope, or one for each element of the second dimension. *)
Definition slopes_fit (X S : tensor R) : Prop :=
  (exists k, (k <= length (tshape X))%nat /\ tshape S = repeat 1%N k) \/
  (exists nb c ds k, tshape X = nb :: c :: ds /\ (k <= 1)%nat /\ tshape S = repeat 1%N k ++ c :: repeat 1%N (length ds)).
Lemma narrow_ones s : narrow (repeat 1%N (length s)) s.
Proof. induction s as [|a s IH]; constructor; [right; reflexivity|exact IH]. Qed.
Lemma prod_ones k : prodN (repeat 1%N k) = 1%N.
Proof. induction k as [|k IH]; [reflexivity|]. cbn [repeat prodN]. rewrite IH. reflexivity. Qed.
Lemma prodN_cat a b : prodN (a ++ b) = (prodN a * prodN b)%N.
Proof. induction a as [|x a IH]; cbn [app prodN]; [|rewrite IH]; lia. Qed.

(** PRelu with such slopes, constants of a known shape.  Missing: other slopes (wrong or refused:
    below), slopes that are computed, rounding. *)
Theorem C67_prelu_partial : forall (value : arg -> option (tensor R)) (e : string -> option (tensor R)) (n : rnode) (X S : tensor R) (a : arg) (out : string),
  input_is e n X -> nth_error (ninputs n) 1 = Some a -> constant_is value a S -> shape_known a (tshape S) -> slopes_fit X S -> output_name n out ->
  exists Y, prelu_run value n e = Some (out, Y) /\ onnx_prelu X S = Some Y.
Proof.
  intros value e n X S a out HX Ha HS HK HF Ho. pose proof HX as (x & ins & _ & _ & WX & _). pose proof HS as (_ & WS & _).
  assert (NP : num_parameters n = prodN (tshape S)).
  { unfold num_parameters. rewrite Ha. destruct HK as (t & Ht & Hs). unfold static_shape_known. rewrite Ht, Hs.
    rewrite known_all. reflexivity. }
  assert (EA : prelu_alpha value n = IOk (mkT [prodN (tshape S)] (tdata S))).
  { unfold prelu_alpha. rewrite Ha, (snapshot_of value a S HS), NP. unfold twf in WS. rewrite WS. replace (N.of_nat (N.to_nat (prodN (tshape S))) =? prodN (tshape S))%N with true by lia. reflexivity. }
  unfold prelu_run. rewrite EA, (forward_is e n X _ out HX Ho).
  destruct (N.eq_dec (prodN (tshape S)) 1) as [P1|P1].
  - assert (E : exists m, repeat 1%N m ++ tshape S = repeat 1%N (length (tshape X))).
    { destruct HF as [(k & Hk & Es)|(nb & c & ds & k & EX & Hk & Es)].
      - exists (length (tshape X) - k)%nat. rewrite Es, <- repeat_app. f_equal. lia.
      - rewrite Es, prodN_cat in P1. cbn [prodN] in P1. rewrite !prod_ones in P1. assert (c = 1%N) as -> by lia. exists (1 - k)%nat. rewrite Es, EX. cbn [length].
        change (1%N :: repeat 1%N (length ds)) with (repeat 1%N (Datatypes.S (length ds))). rewrite <- !repeat_app. f_equal. lia. }
    destruct E as (m & E). destruct (prelu_core m X S WX WS) as (Y & u & E1 & E2 & E3); [rewrite E; apply narrow_ones|]. exists Y. split; [|exact E3].
    unfold prelu_forward. cbn [tshape]. rewrite P1 in E1 |- *. rewrite <- E, E1. cbn [obind]. change (bzip _ X u) with (bzip slope_fn X u). rewrite E2. reflexivity.
  - destruct HF as [(k & Hk & Es)|(nb & c & ds & k & EX & Hk & Es)]; [rewrite Es, prod_ones in P1; congruence|].
    assert (Pc : prodN (tshape S) = c) by (rewrite Es, prodN_cat; cbn [prodN]; rewrite !prod_ones; lia).
    assert (E : repeat 1%N (1 - k) ++ tshape S = channel_shape (length (tshape X)) c).
    { rewrite Es, EX. cbn [length]. unfold channel_shape. destruct k as [|[|k]]; [..|lia]; cbn; rewrite ?Nat.sub_0_r; reflexivity. }
    destruct (prelu_core (1 - k) X S WX WS) as (Y & u & E1 & E2 & E3).
    { rewrite E, EX. cbn [length]. unfold channel_shape. constructor; [right; reflexivity|]. constructor; [left; reflexivity|]. replace (Datatypes.S (Datatypes.S (length ds)) - 2)%nat with (length ds) by lia. apply narrow_ones. }
    exists Y. split; [|exact E3]. unfold prelu_forward. cbn [tshape]. rewrite Pc in *. destruct c as [|[p|p|]]; try congruence; rewrite EX in *; rewrite N.eqb_refl, <- E, E1; cbn [obind]; change (bzip _ X u) with (bzip slope_fn X u); rewrite E2; reflexivity.
Qed.
Print Assumptions C67_prelu_partial.

(** A vector of slopes goes with the last dimension in ONNX, and with the second here. *)
Definition s_node : rnode := mkNode "PRelu" "p" [carg "x" 3 None; cweight "s" [2]%N] [carg "y" 3 None] [].
Definition s_value (S : tensor R) (a : arg) : option (tensor R) := match asrc a with VStatic _ => Some S | _ => None end.
Theorem C67_prelu_slope_refuted : exists e X S Y Z, input_is e s_node X /\ constant_is (s_value S) (cweight "s" [2]%N) S /\ shape_known (cweight "s" [2]%N) (tshape S) /\
  prelu_run (s_value S) s_node e = Some ("y"%string, Y) /\ onnx_prelu X S = Some Z /\ get Y [0; 1; 0]%N <> get Z [0; 1; 0]%N.
Proof.
  set (X := mkT [1; 2; 2]%N [-1; -1; -1; -1]). set (S := mkT [2]%N [2; 3]).
  destruct (prelu_core 2 X S) as (Z & u & _ & _ & EZ); [reflexivity|reflexivity|cbn; repeat (constructor; [(left; reflexivity) || (right; reflexivity)|]); constructor|].
  pose proof (shows_elem 0 X eq_refl) as HX. set (A := mkT [1; 2; 1]%N [2; 3]). pose proof (shows_elem 0 A eq_refl) as HA.
  destruct (shows_zip slope_fn X A _ _ _ _ HX HA) as (Y & EY & SY); [cbn; repeat (constructor; [(left; reflexivity) || (right; reflexivity)|]); constructor|].
  exists (fun _ => Some X), X, S, Y, Z. split; [eexists _, _; split; [reflexivity|]; split; [reflexivity|]; split; [reflexivity|]; split; [reflexivity|discriminate]|].
  split; [split; [reflexivity|]; split; [reflexivity|]; eexists; reflexivity|]. split; [eexists; split; reflexivity|].
  split; [unfold prelu_run, prelu_alpha, s_node, num_parameters; cbn [nth_error ninputs]; change (match prelu_forward S X with Some r => Some ("y"%string, r) | None => None end = Some ("y"%string, Y)); change (prelu_forward S X) with (bzip slope_fn X A); rewrite EY; reflexivity|]. split; [exact EZ|].
  assert (V : valid_idx (tshape X) [0; 1; 0]%N) by (cbn; repeat (constructor; [reflexivity|]); constructor).
  rewrite (proj2 (proj2 SY) _ V). intros C.
  assert (GZ : get Z [0; 1; 0]%N = Some (if Rlt_dec (-1) 0 then 2 * -1 else -1)).
  { unfold onnx_prelu in EZ. cbn [X S tshape] in EZ. change (bshape [1; 2; 2]%N [2]%N) with (Some [1; 2; 2]%N) in EZ. destruct (list_eq_dec N.eq_dec [1; 2; 2]%N [1; 2; 2]%N) as [_|K]; [|contradiction K; reflexivity].
    rewrite (Tensor_Proofs.get_tab _ _ _ _ EZ V). reflexivity. }
  rewrite GZ in C. injection C as C. unfold slope_fn in C. change (elem 0 X [0; 1; 0]%N) with (-1) in C. change (elem 0 A (bproj [1; 2; 1]%N [0; 1; 0]%N)) with 3 in C.
  destruct (Rle_dec 0 (-1)); [lra|]. destruct (Rlt_dec (-1) 0); lra.
Qed.
Print Assumptions C67_prelu_slope_refuted.

(** ** IsInf and IsNaN *)
Definition flag (n : rnode) (key : string) (b : bool) : Prop := match get_attr n key with None => b = true | Some (AInt z) => b = negb (z =? 0)%Z | Some _ => False end.
Lemma flags_ok n neg pos : flag n "detect_negative" neg -> flag n "detect_positive" pos -> inf_config n = IOk (neg, pos).
Proof. unfold flag, inf_config, attr_i64_or, attr_i64. destruct (get_attr n "detect_negative") as [[]|], (get_attr n "detect_positive") as [[]|]; intros H1 H2; try contradiction; subst; reflexivity. Qed.
Lemma each_eq {A B} (f g : A -> B) X Y : (forall a, f a = g a) -> each_element f X Y -> each_element g X Y.
Proof. intros H (W & S & E). split; [exact W|]. split; [exact S|]. intros idx a V G. rewrite <- H. exact (E idx a V G). Qed.

Theorem C67_is_inf : forall (n : rnode) (i o : arg) (e : string -> option fval) (neg pos : bool),
  ninputs n = [i] -> noutputs n = [o] -> flag n "detect_negative" neg -> flag n "detect_positive" pos ->
  (forall t X, aty o = TensorT t -> e (aname i) = Some (FDev X) -> twf X -> exists Y, is_inf_run n e = Some (aname o, BDev Y) /\ each_element (is_inf_of neg pos) X Y) /\
  (forall d x, aty o = ScalarNative d -> e (aname i) = Some (FNat x) -> is_inf_run n e = Some (aname o, BNat (is_inf_of neg pos x))).
Proof.
  intros n i o e neg pos Hi Ho Hn Hp. unfold is_inf_run. rewrite (flags_ok n neg pos Hn Hp), Hi, Ho. split.
  - intros t X Ht HX W. rewrite Ht, HX. eexists. split; [reflexivity|]. eapply each_eq; [|apply map_elementwise; exact W]. intros [s|s| |s m ex b]; destruct neg, pos; try destruct s; reflexivity.
  - intros d x Ht Hx. rewrite Ht, Hx. do 3 f_equal. destruct x as [s|s| |s m ex b], neg, pos; try destruct s; reflexivity.
Qed.
Print Assumptions C67_is_inf.
Theorem C67_is_nan : forall (n : rnode) (i o : arg) (e : string -> option fval), ninputs n = [i] -> noutputs n = [o] ->
  (forall X, e (aname i) = Some (FDev X) -> twf X -> exists Y, is_nan_run n e = Some (aname o, BDev Y) /\ each_element is_nan_of X Y) /\
  (forall x, e (aname i) = Some (FNat x) -> is_nan_run n e = Some (aname o, BNat (is_nan_of x))).
Proof.
  intros n i o e Hi Ho. unfold is_nan_run. rewrite Hi, Ho. split.
  - intros X HX W. rewrite HX. eexists. split; [reflexivity|]. eapply each_eq; [|apply map_elementwise; exact W]. intros []; reflexivity.
  - intros x Hx. rewrite Hx. destruct x; reflexivity.
Qed.
Print Assumptions C67_is_nan.
(** The type is that of the input, of booleans; other attributes are refused. *)
Theorem C67_is_type : forall (attrs : list string) (n : rnode) (i : arg), ninputs n = [i] ->
  (~ attrs_in n attrs -> infer_is attrs n = IErr) /\
  (attrs_in n attrs ->
    (forall t s, aty i = TensorT t -> tt_rank t <> 0%N -> tt_shape t = Some s -> N.of_nat (length s) = tt_rank t -> infer_is attrs n = IOk (TensorT (mkTT BoolT (tt_rank t) (Some s)))) /\
    (forall d, aty i = ScalarTensor d -> infer_is attrs n = IOk (ScalarTensor BoolT)) /\
    (forall d, aty i = ScalarNative d -> infer_is attrs n = IOk (ScalarNative BoolT))).
Proof.
  intros attrs n i Hi. unfold infer_is, attrs_in. rewrite Hi. destruct (forallb (fun kv => mem_str (fst kv) attrs) (nattrs n)) eqn:E.
  - split; [intros H; exfalso; apply H; intros k v Hin; rewrite forallb_forall in E; specialize (E _ Hin); cbn [fst] in E; unfold mem_str in E; apply existsb_exists in E; destruct E as (z & Hz & Ez); apply String.eqb_eq in Ez; subst; exact Hz|].
    intros _. cbn [negb map]. split; [|split].
    + intros t s Ht Hr Hs Hl. rewrite Ht. unfold broadcast_output_type. cbn. rewrite N.max_0_l || idtac. destruct (N.eqb_spec (N.max 0 (tt_rank t)) 0) as [C|C]; [lia|]. unfold compute_broadcast_static_shape. cbn. rewrite Hs. cbn. rewrite Hl. replace (N.max 0 (tt_rank t)) with (tt_rank t) in * by lia. rewrite N.eqb_refl. destruct (N.eqb_spec (tt_rank t) 0) as [C'|_]; [contradiction|]. reflexivity.
    + intros d ->. reflexivity.
    + intros d ->. reflexivity.
  - split; [reflexivity|]. intros H. exfalso. apply Bool.not_true_iff_false in E. apply E. apply forallb_forall. intros [k v] Hin. cbn [fst]. unfold mem_str. apply existsb_exists. exists k. split; [exact (H k v Hin)|apply String.eqb_refl].
Qed.
Print Assumptions C67_is_type.
(** .. but there is no code for IsInf of a scalar on the device, whose type is accepted. *)
Theorem C67_is_inf_scalar_refuted : exists n, infer_is ["detect_negative"; "detect_positive"]%string n = IOk (ScalarTensor BoolT) /\ map aty (noutputs n) = [ScalarTensor BoolT] /\ forall e, is_inf_run n e = None.
Proof. exists (mkNode "IsInf" "i" [mkArg "x" (ScalarTensor F32) VDynamic] [mkArg "y" (ScalarTensor BoolT) VDynamic] []). repeat split. Qed.
Print Assumptions C67_is_inf_scalar_refuted.

(** ** Cases that meet the hypotheses *)
Definition x_in : list arg := [carg "x" 2 None].
Definition y_out : list arg := [carg "y" 2 None].
Definition x_val : tensor R := mkT [1; 3]%N [-2; 0; / 2].
Ltac device_by := eexists _, _; split; [reflexivity|]; split; [reflexivity|]; split; [reflexivity|]; split; [reflexivity|exact I].
Ltac output_by := eexists _, _; split; reflexivity.
Example leaky_case :
  let n := mkNode "LeakyRelu" "l" x_in y_out [("alpha"%string, AFloat 0)] in
  let num (_ : N) := / 4 in
  exists Y, unary_run num (fun x => x) n (fun _ => Some (Dev x_val)) = Some ("y"%string, Dev Y) /\ get Y [0; 0]%N = Some (/ 4 * -2) /\ get Y [0; 2]%N = Some (/ 2).
Proof.
  intros n num. destruct (C67_tensor_partial num (fun x => x) (fun _ => Some (Dev x_val)) n (TensorT (mkTT F32 2 None)) x_val "y") as (_ & Y & E & W & S & H).
  { device_by. } { cbn. tauto. } { left. intros k v [[= <- <-]|[]]. split; [left; reflexivity|]. eexists; reflexivity. } { output_by. }
  exists Y. split; [exact E|]. split; eapply H; try reflexivity; try (cbn; repeat (constructor; [reflexivity|]); constructor).
  - replace (/ 4 * -2) with (if Rlt_dec (-2) 0 then given num n "alpha" (/ 100) * -2 else -2) by (destruct (Rlt_dec (-2) 0); [reflexivity|lra]). apply F_leaky.
  - replace (/ 2) with (if Rlt_dec (/ 2) 0 then given num n "alpha" (/ 100) * / 2 else / 2) at 2 by (destruct (Rlt_dec (/ 2) 0); [lra|reflexivity]). apply F_leaky.
Qed.
(** 1/2 rounds to 0 on the device. *)
Example round_case :
  let n := mkNode "Round" "r" x_in y_out [] in
  exists Y, unary_run (fun _ => 0) (fun x => x) n (fun _ => Some (Dev x_val)) = Some ("y"%string, Dev Y) /\ get Y [0; 2]%N = Some 0.
Proof.
  intros n. destruct (C67_tensor_partial (fun _ => 0) (fun x => x) (fun _ => Some (Dev x_val)) n (TensorT (mkTT F32 2 None)) x_val "y") as (_ & Y & E & W & S & H).
  { device_by. } { cbn. tauto. } { left. intros k v []. } { output_by. }
  exists Y. split; [exact E|]. eapply H; [cbn; repeat (constructor; [reflexivity|]); constructor|reflexivity|]. apply (F_round _ _ (/ 2) 0). split; [unfold Rabs; destruct (Rcase_abs _); lra|reflexivity].
Qed.
Example selu_case :
  let n := mkNode "Selu" "s" x_in y_out [] in exists Y, unary_run (fun _ => 0) (fun x => x) n (fun _ => Some (Dev x_val)) = Some ("y"%string, Dev Y) /\ each_element (selu selu_alpha selu_gamma) x_val Y.
Proof.
  intros n. destruct (C67_selu_partial (fun _ => 0) (fun x => x) (fun _ => Some (Dev x_val)) n (TensorT (mkTT F32 2 None)) x_val "y") as (_ & H & _); [device_by|reflexivity|intros k v []|output_by|]. exact (H eq_refl eq_refl).
Qed.
Example native_case :
  let n := mkNode "Floor" "f" [mkArg "x" (ScalarNative F32) VDynamic] [mkArg "y" (ScalarNative F32) VDynamic] [] in
  exists v, unary_run (fun _ => 0) (fun x => x) n (fun _ => Some (Nat_ (/ 2))) = Some ("y"%string, Nat_ v) /\ v = 0.
Proof.
  intros n. destruct (C67_native_partial (fun _ => 0) (fun x => x) (fun _ => Some (Nat_ (/ 2))) n (ScalarNative F32) (/ 2) "y") as (_ & v & E & H); [eexists _, _, F32; repeat split|cbn; tauto|intros k u []|output_by|].
  exists v. split; [exact E|]. apply H. apply (F_floor _ _ (/ 2) 0). split; lra.
Qed.
Example clip_case :
  let n := mkNode "Clip" "c" (x_in ++ [cweight "lo" []]) y_out [] in
  exists Y, clip_run (fun _ => 0) (s_value (mkT [] [-1])) n (fun _ => Some x_val) = Some ("y"%string, Y) /\ each_element (onnx_clip (Some (-1)) None) x_val Y.
Proof.
  intros n. apply C67_clip_partial; [eexists _, _; split; [reflexivity|]; split; [reflexivity|]; split; [reflexivity|]; split; [reflexivity|discriminate]|output_by| |reflexivity|left; discriminate|discriminate].
  right. split; [discriminate|]. eexists _, _, _. repeat split.
Qed.
(** Slopes of shape [2;1] for an input of shape [1;2;2]. *)
Example prelu_case :
  let n := mkNode "PRelu" "p" [carg "x" 3 None; cweight "s" [2; 1]%N] [carg "y" 3 None] [] in
  let X := mkT [1; 2; 2]%N [-1; -1; -1; 1] in let S := mkT [2; 1]%N [2; 3] in
  exists Y, prelu_run (s_value S) n (fun _ => Some X) = Some ("y"%string, Y) /\ onnx_prelu X S = Some Y.
Proof.
  intros n X S. eapply C67_prelu_partial; [eexists _, _; split; [reflexivity|]; split; [reflexivity|]; split; [reflexivity|]; split; [reflexivity|discriminate]|reflexivity|split; [reflexivity|]; split; [reflexivity|]; eexists; reflexivity|eexists; split; reflexivity| |output_by].
  right. exists 1%N, 2%N, [2%N], 0%nat. repeat split. lia.
Qed.
Example is_inf_case :
  let n := mkNode "IsInf" "i" [carg "x" 1 None] [mkArg "y" (TensorT (mkTT BoolT 1 None)) VDynamic] [("detect_negative"%string, AInt 0)] in
  exists Y, is_inf_run n (fun _ => Some (FDev (mkT [3]%N [B754_infinity true; B754_infinity false; B754_nan]))) = Some ("y"%string, BDev Y) /\ tdata Y = [false; true; false].
Proof. eexists. split; reflexivity. Qed.
