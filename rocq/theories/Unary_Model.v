(** The code emitted for element-wise operators with one input:
    crates/burn-onnx/src/burn/node/{abs,acos,..,tanh}.rs, with the attributes and types read in
    the files of the same names in crates/onnx-ir/src/node. *)
From Verif Require Export Conv_Model Unary_Spec.
From Verif Require Import MatMul_Model TensorRun_Model Norm_Model Float_Model Infer_Model Linear_Model.
From Coq Require Import Reals.
From Flocq Require Import Core BinarySingleNaN.
Import Conv_Spec Unary_Spec Tensor_Spec.
Local Open Scope R_scope.

(** What is written after [let out =]; [x] is the name of the input. *)
Inductive ucode :=
| Method (m : string) (x : string)              (* x.m() *)
| Call (f : string) (args : list R) (x : string) (* burn::tensor::activation::f(x, args..) *)
| Gated (alpha : R) (x : string)                (* x.clone() * sigmoid(x * alpha) *)
| Minus (x : string)                            (* -x *)
| Copy (x : string).                            (* x *)

(** ** Burn's methods on tensors and functions of [burn::tensor::activation] *)
Section Burn.
  Context (erf : R -> R).
  Definition method (m : string) : option (R -> R) :=
    let is := String.eqb m in
    if is "abs"%string then Some Rabs else if is "acos"%string then Some acos else if is "asin"%string then Some asin else if is "atan"%string then Some atan
    else if is "acosh"%string then Some (fun x => ln (x + sqrt (x * x - 1))) else if is "asinh"%string then Some (fun x => ln (x + sqrt (x * x + 1)))
    else if is "atanh"%string then Some (fun x => / 2 * ln ((1 + x) / (1 - x)))
    else if is "cos"%string then Some cos else if is "sin"%string then Some sin else if is "tan"%string then Some tan
    else if is "cosh"%string then Some cosh else if is "sinh"%string then Some sinh else if is "tanh"%string then Some tanh
    else if is "exp"%string then Some exp else if is "log"%string then Some ln else if is "sqrt"%string then Some sqrt else if is "erf"%string then Some erf
    else if is "recip"%string then Some Rinv else if is "neg"%string then Some Ropp
    else if is "sign"%string then Some (fun x => if Rlt_dec 0 x then 1 else if Rlt_dec x 0 then -1 else 0)
    else if is "ceil"%string then Some (fun x => IZR (Zceil x)) else if is "floor"%string then Some (fun x => IZR (Zfloor x))
    (* ties to even *)
    else if is "round"%string then Some (fun x => IZR (ZnearestE x)) else None.
  (** The methods of the same names on [f32] and [f64]: [log] wants a base there, [sign] and
      [erf] do not exist, and [round] takes ties away from zero. *)
  Definition native (m : string) : option (R -> R) :=
    if mem_str m ["log"; "sign"; "erf"]%string then None
    else if String.eqb m "round" then Some (fun x => IZR (ZnearestA x)) else method m.
  Definition clamp01 (x : R) : R := Rmin (Rmax x 0) 1.
  Definition hard_sigmoid (alpha beta x : R) : R := clamp01 (x * alpha + beta).
  Definition softplus (beta x : R) : R := ln (1 + exp (x * beta)) / beta.
  Definition sigmoid (x : R) : R := / (1 + exp (- x)).
  Definition elu (alpha x : R) : R := if Rle_dec x 0 then (exp x - 1) * alpha else x.
  Definition activation (f : string) (args : list R) : option (R -> R) :=
    let is := String.eqb f in
    match args with
    | [] => if is "relu"%string then Some (fun x => Rmax x 0) else if is "sigmoid"%string then Some sigmoid
        else if is "softsign"%string then Some (fun x => x / (Rabs x + 1)) else if is "mish"%string then Some (fun x => x * tanh (softplus 1 x))
        else if is "hard_swish"%string then Some (fun x => x * hard_sigmoid (/ 6) (/ 2) x) else if is "silu"%string then Some (fun x => x * sigmoid x)
        else if is "gelu"%string then Some (fun x => x * (erf (x / sqrt 2) + 1) / 2)
        (* with the default parameters of ONNX *)
        else if is "selu"%string then Some (fun x => selu_gamma * elu selu_alpha x) else None
    | [alpha] => if is "elu"%string then Some (elu alpha)
        else if is "celu"%string then Some (fun x => if Rle_dec x 0 then (exp (x / alpha) - 1) * alpha else x)
        else if is "leaky_relu"%string then Some (fun x => if Rle_dec 0 x then x else x * alpha)
        else if is "thresholded_relu"%string then Some (fun x => if Rle_dec x alpha then 0 else x)
        else if is "softplus"%string then Some (softplus alpha) else None
    | [alpha; beta] => if is "hard_sigmoid"%string then Some (hard_sigmoid alpha beta) else None
    | _ => None
    end.

  (** ** Running the statement *)
  Inductive uval := Dev (t : tensor R) | Nat_ (x : R).
  Definition uexec (e : string -> option uval) (c : ucode) : option uval :=
    match c with
    | Copy x => e x
    | Minus x => match e x with Some (Nat_ v) => Some (Nat_ (- v)) | Some (Dev t) => Some (Dev (bmap Ropp t)) | None => None end
    | Method m x => match e x with
        | Some (Dev t) => option_map (fun f => Dev (bmap f t)) (method m)
        | Some (Nat_ v) => option_map (fun f => Nat_ (f v)) (native m)
        | None => None end
    | Call f args x => match e x with Some (Dev t) => option_map (fun g => Dev (bmap g t)) (activation f args) | _ => None end
    | Gated alpha x => match e x with Some (Dev t) => option_map Dev (bzip Rmult t (bmap sigmoid (bmap (fun v => v * alpha) t))) | _ => None end
    end.
End Burn.

(** ** What is emitted *)
Section Emit.
  Context (num : N -> R).
  (** [value.clone().into_f32() as f64]. *)
  Definition real_or (n : rnode) (key : string) (default : R) : ires R :=
    match get_attr n key with None => IOk default | Some (AFloat b) => IOk (num b) | Some _ => IPanic end.
  (** abs.rs:12-19 and the others: the method of the operator. *)
  Definition methods : list (string * string) :=
    [("Abs", "abs"); ("Acos", "acos"); ("Acosh", "acosh"); ("Asin", "asin"); ("Asinh", "asinh"); ("Atan", "atan"); ("Atanh", "atanh"); ("Ceil", "ceil"); ("Cos", "cos"); ("Cosh", "cosh");
     ("Erf", "erf"); ("Exp", "exp"); ("Floor", "floor"); ("Log", "log"); ("Reciprocal", "recip"); ("Round", "round"); ("Sign", "sign"); ("Sin", "sin"); ("Sinh", "sinh"); ("Sqrt", "sqrt"); ("Tan", "tan"); ("Tanh", "tanh")]%string.
  Definition functions : list (string * string) :=
    [("Relu", "relu"); ("Sigmoid", "sigmoid"); ("Softsign", "softsign"); ("Mish", "mish"); ("HardSwish", "hard_swish"); ("Gelu", "gelu")]%string.
  (** elu.rs, celu.rs, leaky_relu.rs, thresholded_relu.rs, with the defaults of onnx-ir elu.rs:76-85,
      celu.rs:75-84, leaky_relu.rs:89-101, thresholded_relu.rs:75-84. *)
  Definition with_alpha : list (string * (string * R)) :=
    [("Elu", ("elu", 1)); ("Celu", ("celu", 1)); ("LeakyRelu", ("leaky_relu", / 100)); ("ThresholdedRelu", ("thresholded_relu", 1))]%string.
  Definition gen_unary (n : rnode) : ires ucode :=
    match ninputs n with
    | [] => IPanic
    | i :: _ =>
        let x := aname i in
        let op := ntype n in
        match sget methods op with
        | Some m => IOk (Method m x)
        | None =>
        match sget functions op with
        | Some f => IOk (Call f [] x)
        | None =>
        match sget with_alpha op with
        | Some (f, d) => ibind (real_or n "alpha" d) (fun a => IOk (Call f [a] x))
        | None =>
        (* hard_sigmoid.rs:12-21, onnx-ir hard_sigmoid.rs:83-98 *)
        if String.eqb op "HardSigmoid" then ibind (real_or n "alpha" (/ 5)) (fun a => ibind (real_or n "beta" (/ 2)) (fun b => IOk (Call "hard_sigmoid" [a; b] x)))
        (* softplus.rs:12-19 *)
        else if String.eqb op "Softplus" then IOk (Call "softplus" [1] x)
        (* swish.rs:12-26 *)
        else if String.eqb op "Swish" then ibind (real_or n "alpha" 1) (fun a => IOk (if Req_EM_T a 1 then Call "silu" [] x else Gated a x))
        (* selu.rs:15-37, onnx-ir selu.rs:83-96: other parameters than the defaults are refused *)
        else if String.eqb op "Selu" then
          ibind (real_or n "alpha" selu_alpha) (fun a => ibind (real_or n "gamma" selu_gamma) (fun g =>
          if Rlt_dec (/ 1000000) (Rabs (a - selu_alpha)) then IPanic
          else if Rlt_dec (/ 1000000) (Rabs (g - selu_gamma)) then IPanic else IOk (Call "selu" [] x)))
        (* neg.rs:12-29 *)
        else if String.eqb op "Neg" then
          match aty i with TensorT _ | ScalarTensor _ => IOk (Method "neg" x) | ScalarNative _ => IOk (Minus x) | ShapeT _ => IPanic end
        (* identity.rs:12-19 *)
        else if String.eqb op "Identity" then IOk (Copy x)
        else IPanic
        end end end
    end.
  (** The statement [let out = ..;]. *)
  Definition unary_run (erf : R -> R) (n : rnode) (e : string -> option uval) : option (string * uval) :=
    match gen_unary n, noutputs n with IOk c, o :: _ => option_map (pair (aname o)) (uexec erf e c) | _, _ => None end.
  (** onnx-ir abs.rs:47-56 and the others: the output has the type of the input.  Where attributes are
      checked, others than those of the operator are refused (celu.rs:59-69, relu.rs:69-76, ..). *)
  Definition checked : list string := ["Celu"; "Elu"; "HardSigmoid"; "LeakyRelu"; "Selu"; "Swish"; "ThresholdedRelu"; "HardSwish"; "Relu"]%string.
  Definition infer_unary (n : rnode) : ires argty :=
    if mem_str (ntype n) checked && negb (forallb (fun kv => mem_str (fst kv) (float_attrs (ntype n))) (nattrs n)) then IErr
    else ibind (first_input n) (fun x => IOk (aty x)).
End Emit.

(** ** Clip *)
Inductive bound := Static (v : R) | Runtime (x : string) (k : nat).
Section Clip.
  Context (num : N -> R) (value : arg -> option (tensor R)).
  (** onnx-ir clip.rs:102-127 [get_clip_input]. *)
  Definition clip_input (n : rnode) (k : nat) : option bound :=
    match nth_error (ninputs n) k with
    | None => None
    | Some a => match asrc a with
        | VOptional => None
        | _ => match value a with
            | None => Some (Runtime (aname a) k)
            | Some t => match tdata t with v :: _ => Some (Static v) | [] => None end
            end
        end
    end.
  (** onnx-ir clip.rs:101-169 [extract_config]: the attributes go before the inputs. *)
  Definition clip_bound (n : rnode) (key : string) (k : nat) : ires (option bound) :=
    match get_attr n key with
    | Some (AFloat b) => IOk (Some (Static (num b)))
    | Some _ => IPanic
    | None => IOk (clip_input n k)
    end.
  Definition clip_config (n : rnode) : ires (option bound * option bound) :=
    ibind (clip_bound n "min" 1) (fun lo => ibind (clip_bound n "max" 2) (fun hi =>
    match lo, hi with None, None => IErr | _, _ => IOk (lo, hi) end)).
  (** Burn's [clamp], [clamp_min] and [clamp_max]. *)
  Definition clamp (lo hi x : R) : R := Rmax (Rmin x hi) lo.
  (** clip.rs:12-49 [forward]. *)
  Definition clip_code (n : rnode) : ires (R -> R) :=
    ibind (iexpect (clip_config n)) (fun c =>
    match c with
    | (Some (Runtime _ _), _) | (_, Some (Runtime _ _)) => IPanic
    | (Some (Static lo), Some (Static hi)) => IOk (clamp lo hi)
    | (Some (Static lo), None) => IOk (Rmax lo)
    | (None, Some (Static hi)) => IOk (Rmin hi)
    | (None, None) => IPanic
    end).
  Definition clip_run (n : rnode) (e : string -> option (tensor R)) : option (string * tensor R) :=
    match clip_code n with IOk f => forward_with e n (fun x => Some (bmap f x)) | _ => None end.
End Clip.

(** ** PRelu *)
Section PRelu.
  Context (value : arg -> option (tensor R)).
  (** prelu.rs:6-18 [num_parameters]. *)
  Definition num_parameters (n : rnode) : N :=
    match nth_error (ninputs n) 1 with
    | Some s => match static_shape_known (aty s) with Some l => prodN l | None => 1%N end
    | None => 1%N
    end.
  (** prelu.rs:39-55 [collect_snapshots]: the data of the slope as a vector of that size (another
      number of elements is refused when it is loaded). *)
  Definition prelu_alpha (n : rnode) : ires (tensor R) :=
    match nth_error (ninputs n) 1 with
    | None => IErr
    | Some s => match snapshot value s with
        | Some t => if (N.of_nat (length (tdata t)) =? num_parameters n)%N then IOk (mkT [num_parameters n] (tdata t)) else IErr
        | None => IErr end
    end.
  (** [burn::nn::PRelu]: one slope for all, or one for each channel (the second dimension). *)
  Definition prelu_forward (alpha x : tensor R) : option (tensor R) :=
    let f x a := if Rle_dec 0 x then x else x * a in
    match tshape alpha with
    | [1%N] => obind (b_reshape (repeat 1%N (length (tshape x))) alpha) (bzip f x)
    | [k] => match tshape x with
        | n :: c :: ds => if (c =? k)%N then obind (b_reshape (channel_shape (length (tshape x)) k) alpha) (bzip f x) else None
        | _ => None end
    | _ => None
    end.
  Definition prelu_run (n : rnode) (e : string -> option (tensor R)) : option (string * tensor R) :=
    match prelu_alpha n with IOk a => forward_with e n (prelu_forward a) | _ => None end.
End PRelu.

(** ** IsInf and IsNaN *)
Inductive fval := FDev (t : tensor f32) | FNat (x : f32).
Inductive bval := BDev (t : tensor bool) | BNat (b : bool).
(** The methods on [f32]; comparisons with a NaN are false. *)
Definition is_infinite (x : f32) : bool := match x with B754_infinity _ => true | _ => false end.
Definition greater0 (x : f32) : bool := match x with B754_infinity s => negb s | B754_finite s _ _ _ => negb s | _ => false end.
Definition lower0 (x : f32) : bool := match x with B754_infinity s => s | B754_finite s _ _ _ => s | _ => false end.
Definition sign_negative (x : f32) : bool := match x with B754_zero s | B754_infinity s | B754_finite s _ _ _ => s | B754_nan => false end.
(** onnx-ir is_inf.rs:78-93 [extract_config]. *)
Definition inf_config (n : rnode) : ires (bool * bool) :=
  ibind (attr_i64_or n "detect_negative" 1) (fun a => ibind (attr_i64_or n "detect_positive" 1) (fun b => IOk (negb (a =? 0)%Z, negb (b =? 0)%Z))).
(** is_inf.rs:12-46 [forward]: by the type of the output. *)
Definition is_inf_run (n : rnode) (e : string -> option fval) : option (string * bval) :=
  match inf_config n, ninputs n, noutputs n with
  | IOk (neg, pos), i :: _, o :: _ =>
      match aty o, e (aname i) with
      | ScalarNative _, Some (FNat x) => Some (aname o, BNat (match neg, pos with
          | true, true => is_infinite x
          | false, true => is_infinite x && negb (sign_negative x)
          | true, false => is_infinite x && sign_negative x
          | false, false => false end))
      | TensorT _, Some (FDev t) => Some (aname o, BDev (mkT (tshape t) (map (match neg, pos with
          | true, true => is_infinite
          | false, true => fun x => is_infinite x && greater0 x
          | true, false => fun x => is_infinite x && lower0 x
          | false, false => fun _ => false end) (tdata t))))
      | _, _ => None
      end
  | _, _, _ => None
  end.
(** is_nan.rs:12-22 [forward]. *)
Definition is_nan (x : f32) : bool := match x with B754_nan => true | _ => false end.
Definition is_nan_run (n : rnode) (e : string -> option fval) : option (string * bval) :=
  match ninputs n, noutputs n with
  | i :: _, o :: _ => match e (aname i) with
      | Some (FNat x) => Some (aname o, BNat (is_nan x))
      | Some (FDev t) => Some (aname o, BDev (mkT (tshape t) (map is_nan (tdata t))))
      | None => None end
  | _, _ => None
  end.
(** onnx-ir is_inf.rs:53-76, is_nan.rs:54-75 [infer_types], comparison.rs:96-98. *)
Definition infer_is (attrs : list string) (n : rnode) : ires argty :=
  if negb (forallb (fun kv => mem_str (fst kv) attrs) (nattrs n)) then IErr
  else match broadcast_output_type (map aty (ninputs n)) (Some BoolT) with Some ty => IOk ty | None => IPanic end.
