(** The code emitted for TopK, OneHot and Range:
    crates/burn-onnx/src/burn/node/{top_k,one_hot,range}.rs and
    crates/onnx-ir/src/node/{topk,one_hot,range}.rs.  Floating-point numbers are
    modelled by real numbers; a variable of any numeric kind holds reals. *)
From Verif Require Export Lines_Model.
From Verif Require Import ReduceR_Spec ShapeOps_Model.
From Verif Require Export Pick_Spec.
Import Pick_Spec Lines_Spec Tensor_Spec.
Local Open Scope N_scope.

(** [f32 as i64] and the like: towards zero. *)
Definition Rtrunc (x : real) : Z := if Rle_dec 0 x then Int_part x else (- Int_part (- x))%Z.

(** crates/onnx-ir/src/ir/tensor_data_ext.rs:73-88 and 101-117, [scalar_i64] and
    [to_f32_vec]; rounding to [f32] and the types both refuse are left out. *)
Definition scalar_i64 (c : cval) : ires Z :=
  match c with
  | CI64 (z :: _) | CInt (z :: _) => IOk z
  | CF (x :: _) => IOk (Rtrunc x)
  | CBool _ => IErr
  | _ => IPanic
  end.
Definition to_f32_vec (c : cval) : ires (list real) :=
  match c with CI64 l | CInt l => IOk (map IZR l) | CF l => IOk l | CBool _ => IErr end.
(** [as_slice::<i64>().unwrap()[0]]. *)
Definition first_i64 (c : cval) : ires Z := match c with CI64 (z :: _) => IOk z | _ => IPanic end.

Inductive known (A : Type) := Static (v : A) | Runtime (k : nat).
Arguments Static {A}. Arguments Runtime {A}.

Section Config.
  Variable value : arg -> option cval.

  (** ** TopK *)
  (** topk.rs:144-197. *)
  Definition topk_config (n : rnode) : ires (N * known N) :=
    match ninputs n with
    | [] => IPanic
    | i0 :: rest =>
        match aty i0 with
        | TensorT t =>
            ibind (match rest with
                   | i1 :: _ => match value i1 with None => IOk (Runtime 1) | Some c => ibind (first_i64 c) (fun k => IOk (Static (to_usize k))) end
                   | [] => match get_attr n "k" with None => IErr | Some a => ibind (attr_i64 a) (fun k => IOk (Static (to_usize k))) end
                   end) (fun k =>
            ibind (attr_i64_or n "axis" (-1)%Z) (fun a => IOk (norm_axis (tt_rank t) a, k)))
        | _ => IErr
        end
    end.
  (** topk.rs:86-142: the types of both results. *)
  Definition infer_topk (n : rnode) : ires (argty * argty) :=
    ibind (attr_i64_or n "largest" 1) (fun lg => if negb (Z.eqb lg 1) then IErr else
    ibind (attr_i64_or n "sorted" 1) (fun so => if negb (Z.eqb so 1) then IErr else
    match ninputs n with
    | [] => IPanic
    | i0 :: _ => match aty i0 with
                 | TensorT t => IOk (TensorT (mkTT (tt_dtype t) (tt_rank t) None), TensorT (mkTT I64 (tt_rank t) None))
                 | _ => IErr
                 end
    end)).
  (** top_k.rs:14-34: the variable, [k] and the axis of [topk_with_indices]. *)
  Definition gen_topk (n : rnode) : ires (string * N * N) :=
    ibind (topk_config n) (fun c =>
    match ninputs n, snd c with
    | i :: _, Static k => IOk (aname i, k, fst c)
    | _, _ => IPanic
    end).

  (** ** OneHot *)
  (** one_hot.rs:150-196. *)
  Definition one_hot_config (n : rnode) : ires (known N * known (real * real) * Z) :=
    match ninputs n with
    | _ :: i1 :: i2 :: _ =>
        ibind (match value i1 with None => IOk (Runtime 1) | Some c => ibind (first_i64 c) (fun d => IOk (Static (to_usize d))) end) (fun depth =>
        ibind (match value i2 with
               | None => IOk (Runtime 2)
               | Some c => ibind (to_f32_vec c) (fun l => match l with [off; on] => IOk (Static (off, on)) | _ => IErr end)
               end) (fun values =>
        ibind (attr_i64_or n "axis" (-1)%Z) (fun axis => IOk (depth, values, axis))))
    | _ => IPanic
    end.
  (** one_hot.rs:64-85: the element type is the one the result had before. *)
  Definition elem_of (ty : argty) : dtype :=
    match ty with TensorT t => tt_dtype t | ScalarTensor d | ScalarNative d => d | ShapeT _ => I64 end.
  Definition infer_one_hot (n : rnode) : ires argty :=
    match ninputs n, noutputs n with
    | i :: _, o :: _ => match aty i with TensorT t => IOk (TensorT (mkTT (elem_of (aty o)) (tt_rank t + 1) None)) | _ => IErr end
    | _, _ => IPanic
    end.
  (** crates/burn-onnx/src/burn/node_traits.rs:40-52. *)
  Inductive tkind := KFloat | KInt | KBool.
  Definition kind_of_dtype (d : dtype) : tkind := if is_float d then KFloat else if dtype_beq d BoolT then KBool else KInt.
  (** What follows [one_hot_fill]. *)
  Inductive hot_cast := HNone | HCast (d : dtype) | HFloat (d : dtype) | HInt (d : dtype) | HBool.
  Record hot_code := mkHot { h_in : string; h_int : bool; h_depth : N; h_on : real; h_off : real; h_axis : Z; h_cast : hot_cast }.
  (** burn/node/one_hot.rs:15-89. *)
  Definition gen_one_hot (n : rnode) : ires hot_code :=
    ibind (one_hot_config n) (fun c =>
    match c, ninputs n, noutputs n with
    | (Static depth, Static (off, on), axis), i :: _, o :: _ =>
        match aty i, aty o with
        | TensorT ti, TensorT to =>
            let code int cast := IOk (mkHot (aname i) int depth on off axis cast) in
            match kind_of_dtype (tt_dtype ti), kind_of_dtype (tt_dtype to) with
            | KInt, KInt => code true (if dtype_beq (tt_dtype ti) (tt_dtype to) then HNone else HCast (tt_dtype to))
            | KFloat, KFloat => code false (if dtype_beq (tt_dtype ti) (tt_dtype to) then HNone else HCast (tt_dtype to))
            | KInt, KFloat => code true (HFloat (tt_dtype to))
            | KFloat, KInt => code false (HInt (tt_dtype to))
            | KInt, KBool => code true HBool
            | KFloat, KBool => code false HBool
            | KBool, _ => IPanic
            end
        | _, _ => IPanic
        end
    | _, _, _ => IPanic
    end).

  (** ** Range *)
  Inductive rparam := RLit (z : Z) | RNative (x : string) | RTensor (x : string) (d : dtype).
  (** onnx-ir range.rs:164-200. *)
  Definition range_input (n : rnode) (k : nat) : ires (known Z) :=
    match nth_error (ninputs n) k with
    | None => IErr
    | Some i => match value i with None => IOk (Runtime k) | Some c => ibind (scalar_i64 c) (fun z => IOk (Static z)) end
    end.
  Definition range_config (n : rnode) : ires (known Z * known Z * known Z) :=
    ibind (range_input n 0) (fun s => ibind (range_input n 1) (fun l => ibind (range_input n 2) (fun d => IOk (s, l, d)))).
  (** onnx-ir range.rs:115-162. *)
  Definition infer_range (n : rnode) : ires argty :=
    match ninputs n with i :: _ => IOk (TensorT (mkTT (elem_of (aty i)) 1 None)) | [] => IPanic end.
  (** burn/node/range.rs:14-51. *)
  Definition range_param (n : rnode) (c : known Z) : ires rparam :=
    match c with
    | Static z => IOk (RLit z)
    | Runtime k => match nth_error (ninputs n) k with
                   | Some a => match aty a with
                               | ScalarNative _ => IOk (RNative (aname a))
                               | ScalarTensor d => IOk (RTensor (aname a) d)
                               | _ => IPanic
                               end
                   | None => IPanic
                   end
    end.
  Definition gen_range (n : rnode) : ires (rparam * rparam * rparam) :=
    ibind (range_config n) (fun c => let '(s, l, d) := c in
    ibind (range_param n s) (fun s' => ibind (range_param n l) (fun l' => ibind (range_param n d) (fun d' => IOk (s', l', d'))))).
End Config.

(** ** Burn's methods, as documented; [None] is a panic. *)
(** [topk_with_indices]: the lines are sorted in descending order along with the
    indices, then the first [k] are selected.  [sort l] is the order in which the
    places of [l] come out of the sort. *)
Section TopK.
  Context {T : Type} (sort : list T -> list nat).
  Definition top_line (k : N) (l : list T) : option (list T) :=
    if N.of_nat (length l) <? k then None else mapo (nth_error l) (firstn (N.to_nat k) (sort l)).
  Definition top_index (k : N) (l : list T) : option (list Z) :=
    if N.of_nat (length l) <? k then None else Some (map Z.of_nat (firstn (N.to_nat k) (sort l))).
  Definition b_topk (k axis : N) (x : tensor T) : option (tensor T * tensor Z) :=
    obind (b_lines (top_line k) (fun _ => k) axis x) (fun v => obind (b_lines (top_index k) (fun _ => k) axis x) (fun i => Some (v, i))).
  Definition run_topk (e : lenv T) (o0 o1 : string) (c : string * N * N) : option (lenv T) :=
    let '(x, k, axis) := c in
    obind (ltens e x) (fun t => obind (b_topk k axis t) (fun r => Some (lset (lset e o0 (LT (fst r))) o1 (LI (snd r))))).
End TopK.
(** What a sort in descending order does, stable or not. *)
Definition sorts {T} (le : T -> T -> bool) (sort : list T -> list nat) : Prop :=
  forall l, Permutation (sort l) (seq 0 (length l)) /\
    StronglySorted (fun i j => exists v w, nth_error l i = Some v /\ nth_error l j = Some w /\ le w v = true) (sort l).
Definition stable {T} (le : T -> T -> bool) (sort : list T -> list nat) : Prop :=
  forall l, StronglySorted (fun i j => forall v w, nth_error l i = Some v -> nth_error l j = Some w -> le v w = true -> (i < j)%nat) (sort l).

(** [one_hot_fill]: a new dimension at the axis; the difference of both values is
    added to a tensor of [off] at the classes.  A class out of bounds is a panic.
    The values are converted to the kind of the input. *)
Definition fill_value (int : bool) (v : real) : real := if int then IZR (Rtrunc v) else v.
Definition hot_index (depth : N) (v : real) : Z :=
  ((if Rlt_dec v 0 then Z.of_N depth else Rtrunc v) + (if Rlt_dec 0 v then 0 else Rtrunc v))%Z.
Definition b_one_hot_fill (int : bool) (depth : N) (on off : real) (axis : Z) (x : tensor real) : option (tensor real) :=
  let r := length (tshape x) in
  let a := (if (axis <? 0) then axis + Z.of_nat r + 1 else axis)%Z in
  if ((a <? 0) || (Z.of_nat r <? a))%Z then None
  else
    let P := firstn (Z.to_nat a) (tshape x) in
    let Q := skipn (Z.to_nat a) (tshape x) in
    let ix := mkT (P ++ 1 :: Q) (map (hot_index depth) (tdata x)) in
    b_scatter Rplus (Z.to_N a) ix (b_fill (tshape ix) (fill_value int on - fill_value int off)%R) (b_fill (P ++ depth :: Q) (fill_value int off)).
(** Conversions; a conversion to floating point or between types of the same kind
    keeps the value (rounding and wrapping are left out). *)
Definition hot_convert (c : hot_cast) (v : real) : real :=
  match c with
  | HNone | HCast _ | HFloat _ => v
  | HInt _ => IZR (Rtrunc v)
  | HBool => if Req_EM_T v 0 then 0%R else 1%R
  end.
Definition run_one_hot (e : lenv real) (o : string) (c : hot_code) : option (lenv real) :=
  obind (ltens e (h_in c)) (fun x =>
  obind (b_one_hot_fill (h_int c) (h_depth c) (h_on c) (h_off c) (h_axis c) x) (fun r =>
  Some (lset e o (LT (mkT (tshape r) (map (hot_convert (h_cast c)) (tdata r))))))).

(** [arange_step(start..limit, step)]: [start], [start + step], and so on while
    less than [limit]; a step of zero is a panic. *)
Fixpoint steps (fuel : nat) (cur limit step : Z) : list Z :=
  match fuel with
  | O => []
  | S f => if (cur <? limit)%Z then cur :: steps f (cur + step) limit step else []
  end.
Definition b_arange (start limit : Z) (step : N) : option (tensor Z) :=
  if step =? 0 then None
  else let l := steps (Z.to_nat (limit - start)) start limit (Z.of_N step) in Some (mkT [N.of_nat (length l)] l).
(** Only parameters of type [i64] compile; the result is a tensor of integers. *)
Definition read_param {T} (e : lenv T) (p : rparam) : option Z :=
  match p with
  | RLit z => Some z
  | RNative x => match e x with Some (LNative v) => Some v | _ => None end
  | RTensor x d => match e x with Some (LI (mkT [1] [v])) => if dtype_beq d I64 then Some v else None | _ => None end
  end.
Definition run_range {T} (e : lenv T) (o : string) (c : rparam * rparam * rparam) : option (lenv T) :=
  let '(s, l, d) := c in
  obind (read_param e s) (fun s' => obind (read_param e l) (fun l' => obind (read_param e d) (fun d' =>
  obind (b_arange s' l' (to_usize d')) (fun r => Some (lset e o (LI r)))))).
