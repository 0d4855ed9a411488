(** The emitted functions against the definitions of ONNX. *)
From Verif Require Export Unary_Model.
From Verif Require Import Tensor_Proofs MatMul_Model TensorRun_Model Norm_Proofs Norm_Model Linear_Model.
From Coq Require Import Reals Lra Lia.
From Flocq Require Import Core.
Import Conv_Spec Unary_Spec Tensor_Spec.
Local Open Scope R_scope.

Lemma abs_ok x : Rabs x = (if Rlt_dec x 0 then - x else x).
Proof. destruct (Rlt_dec x 0); [apply Rabs_left; assumption|apply Rabs_pos_eq; lra]. Qed.
Lemma tanh_ok x : tanh x = (exp x - exp (- x)) / (exp x + exp (- x)).
Proof. unfold tanh, sinh, cosh. pose proof (exp_pos x). pose proof (exp_pos (- x)). field. lra. Qed.
Lemma sign_ok x : (if Rlt_dec 0 x then 1 else if Rlt_dec x 0 then -1 else 0) = sign_of x.
Proof. unfold sign_of. destruct (Rlt_dec 0 x), (Rlt_dec x 0); lra. Qed.
Lemma ceil_ok x k : least_above x k -> Zceil x = k.
Proof. intros (H1 & H2). apply Zceil_imp. rewrite minus_IZR. lra. Qed.
Lemma floor_ok x k : greatest_below x k -> Zfloor x = k.
Proof. intros (H1 & H2). apply Zfloor_imp. rewrite plus_IZR. lra. Qed.
Lemma round_ok x k : rounds x k -> ZnearestE x = k.
Proof.
  intros (H1 & H2). destruct (Rle_lt_or_eq_dec _ _ H1) as [L|E].
  - apply Znearest_imp. rewrite Rabs_minus_sym. exact L.
  - specialize (H2 E). unfold ZnearestE, Znearest.
    assert (C : x = IZR k + / 2 \/ x = IZR k - / 2) by (unfold Rabs in E; destruct (Rcase_abs _); lra).
    destruct C as [C|C].
    + assert (F : Zfloor x = k) by (apply Zfloor_imp; rewrite plus_IZR; lra). rewrite F. replace (x - IZR k) with (/ 2) by lra. rewrite Rcompare_Eq by reflexivity. rewrite H2. reflexivity.
    + assert (F : Zfloor x = (k - 1)%Z) by (apply Zfloor_imp; rewrite plus_IZR, minus_IZR; lra). rewrite F, minus_IZR. replace (x - (IZR k - 1)) with (/ 2) by lra. rewrite Rcompare_Eq by reflexivity.
      assert (O : Z.even (k - 1) = false) by (rewrite Z.even_sub, H2; reflexivity). rewrite O. cbn [negb]. apply Zceil_imp. rewrite minus_IZR. lra.
Qed.
Lemma clamp01_ok x : clamp01 x = Rmax 0 (Rmin 1 x).
Proof. unfold clamp01, Rmin, Rmax. repeat destruct (Rle_dec _ _); lra. Qed.
Lemma logistic_ok x : sigmoid x = logistic x.
Proof. unfold sigmoid, logistic. lra. Qed.
Lemma softplus_ok x : softplus 1 x = ln (1 + exp x).
Proof. unfold softplus. rewrite Rmult_1_r. lra. Qed.
Lemma elu_ok alpha x : elu alpha x = (if Rlt_dec x 0 then alpha * (exp x - 1) else x).
Proof. unfold elu. destruct (Rle_dec x 0), (Rlt_dec x 0); try lra. assert (x = 0) by lra. subst. rewrite exp_0. lra. Qed.
Lemma exp_le_1 x : x <= 0 -> exp x <= 1.
Proof. intros H. rewrite <- exp_0. destruct (Rle_lt_or_eq_dec _ _ H) as [L| ->]; [left; apply exp_increasing; exact L|lra]. Qed.
Lemma exp_ge_1 x : 0 <= x -> 1 <= exp x.
Proof. intros H. rewrite <- exp_0. destruct (Rle_lt_or_eq_dec _ _ H) as [L| <-]; [left; apply exp_increasing; exact L|lra]. Qed.
Lemma celu_ok alpha x : alpha <> 0 -> (if Rle_dec x 0 then (exp (x / alpha) - 1) * alpha else x) = Rmax 0 x + Rmin 0 (alpha * (exp (x / alpha) - 1)).
Proof.
  intros A. assert (S : (x <= 0 -> alpha * (exp (x / alpha) - 1) <= 0) /\ (0 <= x -> 0 <= alpha * (exp (x / alpha) - 1))).
  { destruct (Rlt_dec 0 alpha) as [P|P].
    - split; intros H.
      + assert (x / alpha <= 0) by (unfold Rdiv; pose proof (Rinv_0_lt_compat _ P); nra). pose proof (exp_le_1 _ H0). nra.
      + assert (0 <= x / alpha) by (unfold Rdiv; pose proof (Rinv_0_lt_compat _ P); nra). pose proof (exp_ge_1 _ H0). nra.
    - assert (Q : alpha < 0) by lra. split; intros H.
      + assert (0 <= x / alpha) by (unfold Rdiv; pose proof (Rinv_lt_0_compat _ Q); nra). pose proof (exp_ge_1 _ H0). nra.
      + assert (x / alpha <= 0) by (unfold Rdiv; pose proof (Rinv_lt_0_compat _ Q); nra). pose proof (exp_le_1 _ H0). nra. }
  destruct S as (S1 & S2). destruct (Rle_dec x 0) as [H|H].
  - rewrite Rmax_left by lra. rewrite Rmin_right by auto. lra.
  - rewrite Rmax_right by lra. rewrite Rmin_left by (apply S2; lra). lra.
Qed.
Lemma selu_ok x : selu_gamma * elu selu_alpha x = selu selu_alpha selu_gamma x.
Proof. unfold selu, elu. destruct (Rle_dec x 0); lra. Qed.

Lemma bmap_elementwise {A} (f : A -> A) (X : tensor A) : twf X -> each_element f X (bmap f X).
Proof.
  intros W. unfold bmap. split; [unfold twf in *; cbn [tdata tshape]; rewrite map_length; exact W|]. split; [reflexivity|].
  intros idx a V G. unfold get in *. cbn [tdata tshape]. rewrite nth_error_map, G. reflexivity.
Qed.
Lemma map_elementwise {A B} (f : A -> B) (X : tensor A) : twf X -> each_element f X (mkT (tshape X) (map f (tdata X))).
Proof.
  intros W. split; [unfold twf in *; cbn [tdata tshape]; rewrite map_length; exact W|]. split; [reflexivity|].
  intros idx a V G. unfold get in *. cbn [tdata tshape]. rewrite nth_error_map, G. reflexivity.
Qed.
Lemma gated_ok alpha X : twf X -> bzip Rmult X (bmap sigmoid (bmap (fun v => v * alpha) X)) = Some (bmap (fun x => x * sigmoid (x * alpha)) X).
Proof.
  intros W. pose proof (shows_elem 0 X W) as H. pose proof (shows_map sigmoid _ _ _ (shows_map (fun v => v * alpha) _ _ _ H)) as H2.
  destruct (shows_zip_same Rmult _ _ _ _ _ H H2) as (r & E & S). rewrite E. f_equal. eapply shows_same; [exact S|]. exact (shows_map (fun x => x * sigmoid (x * alpha)) _ _ _ H).
Qed.

(** The operators treated here. *)
Definition unary_ops : list string :=
  ["Abs"; "Acos"; "Acosh"; "Asin"; "Asinh"; "Atan"; "Atanh"; "Ceil"; "Cos"; "Cosh"; "Erf"; "Exp"; "Floor"; "Log"; "Reciprocal"; "Round"; "Sign"; "Sin"; "Sinh"; "Sqrt"; "Tan"; "Tanh";
   "Relu"; "Sigmoid"; "Softsign"; "Mish"; "HardSwish"; "Gelu"; "Elu"; "Celu"; "LeakyRelu"; "ThresholdedRelu"; "HardSigmoid"; "Softplus"; "Swish"; "Neg"; "Identity"]%string.
Lemma sget_In {B} (l : list (string * B)) k v : sget l k = Some v -> In (k, v) l.
Proof. induction l as [|[k' v'] l IH]; cbn; [discriminate|]. destruct (String.eqb_spec k' k) as [->|]; [intros [= ->]; left; reflexivity|intros H; right; auto]. Qed.
Lemma real_or_ok num n keys key d : floats_in n keys -> real_or num n key d = IOk (given num n key d).
Proof.
  intros H. unfold real_or, given. destruct (get_attr n key) as [a|] eqn:E; [|reflexivity]. unfold get_attr in E. apply sget_In in E. destruct (H _ _ E) as (_ & b & ->). reflexivity.
Qed.

Section Emitted.
  Context (num : N -> R) (erf : R -> R).
  Definition computes (n : rnode) (g : R -> R) : Prop := forall x y, onnx_fn erf (given num n) (ntype n) x y -> g x = y.
  Lemma gen_ok n i r e X : ninputs n = i :: r -> e (aname i) = Some (Dev X) -> twf X -> (forall k, aty i <> ShapeT k) -> (forall d, aty i <> ScalarNative d) ->
    In (ntype n) unary_ops -> floats_in n (float_attrs (ntype n)) \/ ntype n = "Gelu"%string ->
    exists c g, gen_unary num n = IOk c /\ uexec erf e c = Some (Dev (bmap g X)) /\ computes n g.
  Proof.
    intros Hn He W Hs Hnat Hin Ha. unfold gen_unary. rewrite Hn. unfold computes, unary_ops in *. cbn [In] in Hin.
    repeat (destruct Hin as [Hin|Hin]; [rewrite <- Hin in *; cbn [sget methods functions with_alpha String.eqb Ascii.eqb Bool.eqb]|]); [..|destruct Hin].
    all: try (eexists _, _; split; [reflexivity|]; split; [cbn [uexec]; rewrite He; reflexivity|]; intros x y H; inversion H; subst; try discriminate).
    all: try (destruct Ha as [Ha|Ha]; [|discriminate Ha]; rewrite ?(real_or_ok num n _ _ _ Ha); cbn [ibind]).
    all: try (eexists _, _; split; [reflexivity|]; split; [cbn [uexec]; rewrite He; reflexivity|]; intros x y H; inversion H; subst; try discriminate).
    all: try reflexivity.
    - apply abs_ok.
    - rewrite (ceil_ok x k) by assumption. reflexivity.
    - rewrite (floor_ok x k) by assumption. reflexivity.
    - lra.
    - rewrite (round_ok x k) by assumption. reflexivity.
    - apply sign_ok.
    - apply tanh_ok.
    - apply Rmax_comm.
    - apply logistic_ok.
    - rewrite (Rplus_comm (Rabs x)). reflexivity.
    - rewrite softplus_ok. reflexivity.
    - unfold hard_sigmoid. rewrite clamp01_ok. reflexivity.
    - lra.
    - apply elu_ok.
    - apply celu_ok. assumption.
    - destruct (Rle_dec 0 x), (Rlt_dec x 0); lra.
    - destruct (Rle_dec x _), (Rlt_dec _ x); lra.
    - unfold hard_sigmoid. rewrite clamp01_ok. f_equal. f_equal. lra.
    - rewrite softplus_ok. f_equal. lra.
    - destruct (Req_EM_T (given num n "alpha" 1) 1) as [E|E].
      + eexists _, _; split; [reflexivity|]; split; [cbn [uexec]; rewrite He; reflexivity|]; intros x y H; inversion H; subst; try discriminate. rewrite E, Rmult_1_l, logistic_ok. reflexivity.
      + eexists _, _; split; [reflexivity|]; split; [cbn [uexec]; rewrite He, (gated_ok _ X W); reflexivity|]; intros x y H; inversion H; subst; try discriminate. cbv beta. rewrite logistic_ok, (Rmult_comm x (given _ _ _ _)). reflexivity.
    - destruct (aty i) as [d|d|k|t]; [|exfalso; eapply Hnat; reflexivity|exfalso; eapply Hs; reflexivity|];
      (eexists _, _; split; [reflexivity|]; split; [cbn [uexec]; rewrite He; reflexivity|]; intros x y H; inversion H; subst; try discriminate; reflexivity).
    - exists (Copy (aname i)), (fun x => x). split; [reflexivity|]. split; [cbn [uexec]; rewrite He; f_equal; f_equal; destruct X as [sh dt]; unfold bmap; cbn [tshape tdata]; rewrite map_id; reflexivity|].
      intros x y H; inversion H; subst; try discriminate; reflexivity.
  Qed.
End Emitted.
