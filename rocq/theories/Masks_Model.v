(** The importer's and the code generator's parts for NonZero, Trilu, EyeLike and
    ConstantOfShape: crates/onnx-ir/src/node/{nonzero,trilu,eye_like,
    constant_of_shape}.rs and crates/burn-onnx/src/burn/node/ with the same names.
    Sizes ([usize] in the code) are unbounded here, except where [as usize] makes
    one of a number in the model. *)
From Coq Require Import SpecFloat.
From Verif Require Export ShapeOps_Model Masks_Spec.
From Verif Require Import Index_Model TensorRun_Model Payload_Model Fold_Model.
Import Masks_Spec BinOps_Spec Tensor_Spec.
Local Open Scope N_scope.

(** ** Types *)
(** node/nonzero.rs:50-79. *)
Definition infer_nonzero (n : rnode) : ires argty :=
  ibind (first_input n) (fun i => match aty i with
    | TensorT t => IOk (TensorT (mkTT I64 2 (Some [Some (tt_rank t); None])))
    | _ => IErr end).
(** node/trilu.rs:70-94. *)
Definition infer_trilu (n : rnode) : ires argty :=
  ibind (first_input n) (fun i =>
    let rank := match aty i with TensorT t => tt_rank t | _ => 0 end in
    if rank <? 2 then IErr else IOk (aty i)).
(** node/eye_like.rs:91-122, without the [expect] its callers put around it. *)
Definition eye_like_config (n : rnode) : ires (option dtype * Z) :=
  if only_attrs n ["dtype"%string; "k"%string] then
    ibind (match get_attr n "dtype" with
           | None => IOk None
           | Some a => ibind (attr_i64 a) (fun z => match element_type_from_proto (Fold_Model.as_i32 z) with Some d => IOk (Some d) | None => IErr end)
           end) (fun d =>
    ibind (attr_i64_or n "k" 0) (fun k => IOk (d, k)))
  else IErr.
(** node/eye_like.rs:50-89. *)
Definition infer_eye_like (n : rnode) : ires argty :=
  ibind (first_input n) (fun i => match aty i with
    | TensorT t =>
        if negb (tt_rank t =? 2) then IErr
        else ibind (iexpect (eye_like_config n)) (fun c =>
          IOk (TensorT (mkTT (match fst c with Some d => d | None => tt_dtype t end) (tt_rank t) (tt_shape t))))
    | _ => IErr end).

Section WithValues.
  Variable value : arg -> option cval.
  (** node/trilu.rs:96-133.  [scalar_i64] (ir/tensor_data_ext.rs:73-88) of data of
      types other than ONNX's int64, and int32, is left out: it has no result here. *)
  Definition trilu_config (n : rnode) : ires (bool * Z) :=
    ibind (attr_i64_or n "upper" 1) (fun u =>
    ibind (match ninputs n with
           | _ :: ki :: _ => match value ki with
                             | Some c => match cv_ints c with Some (z :: _) => IOk z | Some [] => IPanic | None => IErr end
                             | None => IOk 0%Z
                             end
           | _ => IOk 0%Z
           end) (fun k => IOk (negb (u =? 0)%Z, k))).

  (** ConstantOfShape.  The tensor of the attribute: its data type and, if it has
      one, its first element. *)
  Variable load : N -> dtype * option elt.
  Definition fill_attr (n : rnode) : ires (option (dtype * option elt)) :=
    match get_attr n "value" with None => IOk None | Some (ATensor p) => IOk (Some (load p)) | Some _ => IPanic end.
  (** node/constant_of_shape.rs:223-246. *)
  Inductive fill_shape := FStatic (l : list Z) | FRuntime (x : string).
  Definition constant_config (n : rnode) : ires (fill_shape * option (dtype * option elt)) :=
    ibind (first_input n) (fun i =>
    ibind (match value i with
           | Some c => match cv_ints c with Some l => IOk (FStatic l) | None => IErr end
           | None => IOk (FRuntime (aname i))
           end) (fun s => ibind (fill_attr n) (fun v => IOk (s, v)))).
  (** Lines 78-221, the type of the output; the type of the input becomes a shape
      of that rank. *)
  Definition constant_rank (i : arg) : ires N :=
    match aty i with
    | ShapeT r => IOk r
    | TensorT t =>
        if negb (tt_rank t =? 1) then IErr
        else if negb (dtype_beq (tt_dtype t) I64) then IErr
        else match value i with
             | Some c => match cv_ints c with Some l => IOk (N.of_nat (length l)) | None => IErr end
             | None => match tt_shape t with Some (Some d :: _) => IOk d | _ => IErr end
             end
    | _ => IErr
    end.
  Definition infer_constant (n : rnode) : ires argty :=
    ibind (first_input n) (fun i =>
    ibind (iexpect (constant_config n)) (fun c =>
    ibind (constant_rank i) (fun rank =>
      let d := match snd c with Some (d, _) => d | None => F32 end in
      let tensor := IOk (TensorT (mkTT d rank None)) in
      if (rank =? 1) && dtype_beq d I64 then
        match value i with
        | Some c => match cv_ints c with Some (z :: _) => IOk (ShapeT (to_usize z)) | Some [] => IOk (ScalarNative d) | None => tensor end
        | None => tensor
        end
      else if rank =? 0 then IOk (ScalarNative d)
      else tensor))).

  (** ** The emitted statements *)
  Inductive nz_kind := NzFloat | NzInt | NzBool.
  Inductive lit := LVal (d : dtype) (v : elt) | LZero.   (* the value; 0.0f32 *)
  Inductive mcode :=
  | KNonZero (k : nz_kind) (x : string)                    (* x.not_equal_elem(0).argwhere().transpose() *)
  | KTri (upper : bool) (x : string) (k : Z)               (* x.triu(k) *)
  | KEye (x : string) (k : Z) (conv : option (bool * dtype)) (* Tensor::diag_mask(x.shape(), k).bool_not().int().cast(d); true: int *)
  | KLit (l : lit)
  | KBool (b : bool) (s : fill_shape)                      (* Tensor::<B, _, Int>::ones(s).bool() *)
  | KFill (l : lit) (d : dtype) (rank : N) (s : fill_shape) (* from_data_dtype([l], d).reshape([1, ..]).expand(s) *)
  | KArray (l : lit) (n : N).                              (* [l, ..] *)
  (** burn/node/nonzero.rs:13-45. *)
  Definition gen_nonzero (n : rnode) : option mcode :=
    match ninputs n with
    | x :: _ => match aty x with
                | TensorT t => Some (KNonZero (match tt_dtype t with F64 | F32 | F16 | BF16 => NzFloat | BoolT => NzBool | _ => NzInt end) (aname x))
                | _ => None end
    | [] => None
    end.
  (** burn/node/trilu.rs:13-28. *)
  Definition gen_trilu (n : rnode) : option mcode :=
    match trilu_config n, ninputs n with IOk (u, k), x :: _ => Some (KTri u (aname x) k) | _, _ => None end.
  (** burn/node/eye_like.rs:14-42; [out] is the type of the output. *)
  Definition gen_eye_like (n : rnode) (out : argty) : option mcode :=
    match eye_like_config n, ninputs n with
    | IOk (_, k), x :: _ =>
        match out with
        | TensorT t =>
            match tt_dtype t with
            | F64 | F32 | F16 | BF16 => Some (KEye (aname x) k (Some (false, tt_dtype t)))
            | BoolT => Some (KEye (aname x) k None)
            | _ => Some (KEye (aname x) k (Some (true, tt_dtype t)))
            end
        | _ => None
        end
    | _, _ => None
    end.
  (** burn/node/constant_of_shape.rs:13-45. *)
  Definition literal (v : option (dtype * option elt)) : option lit :=
    match v with
    | Some (d, o) => match d with F32 | F64 | I32 | I64 | BoolT => option_map (LVal d) o | _ => Some LZero end
    | None => Some LZero
    end.
  (** Lines 47-137. *)
  Definition gen_constant (n : rnode) (out : argty) : option mcode :=
    match constant_config n with
    | IOk (s, v) =>
        obind (literal v) (fun l =>
        match out with
        | ScalarNative _ | ScalarTensor _ => Some (KLit l)
        | TensorT t =>
            match v with
            | Some (BoolT, Some (EB b)) => Some (KBool b s)
            | Some (BoolT, _) => None
            | _ => Some (KFill l (tt_dtype t) (tt_rank t) s)
            end
        | ShapeT k => Some (KArray l k)
        end)
    | _ => None
    end.
End WithValues.

(** ** Running them *)
Definition not_equal_zero (k : nz_kind) (v : elt) : option bool :=
  match k, v with
  | NzFloat, EF x => Some (negb (SFeqb x (S754_zero false)))
  | NzInt, EI z => Some (negb (z =? 0)%Z)
  | NzBool, EB b => Some b
  | _, _ => None
  end.
(** [argwhere]: a row for each [true], in row-major order. *)
Definition b_argwhere (m : tensor bool) : tensor Z :=
  let ps := filter (fun idx => match get m idx with Some b => b | None => false end) (indices (tshape m)) in
  mkT [N.of_nat (length ps); N.of_nat (length (tshape m))] (concat (map (map Z.of_N) ps)).
Definition b_transpose2 (x : tensor Z) : option (tensor Z) :=
  match tshape x with [a; b] => tab [b; a] (fun idx => match idx with [i; j] => get x [j; i] | _ => None end) | _ => None end.
(** [triu], [tril]: the elements where row minus column is above (below) minus the
    offset are replaced by zero.  There is none for tensors of booleans. *)
Definition last_two (idx : list N) : option (N * N) := match rev idx with j :: i :: _ => Some (i, j) | _ => None end.
Definition b_tri (upper : bool) (k : Z) (d : dtype) (x : tensor elt) : option (tensor elt) :=
  if dtype_beq d BoolT then None
  else tab (tshape x) (fun idx => obind (last_two idx) (fun ij =>
         let diff := (Z.of_N (fst ij) - Z.of_N (snd ij))%Z in
         if (if upper then - k <? diff else diff <? - k)%Z then Some (zero_of d) else get x idx)).
(** [diag_mask]: false on the diagonal. *)
Definition b_diag_mask (s : list N) (k : Z) : option (tensor bool) :=
  tab s (fun idx => option_map (fun ij => negb (Z.of_N (fst ij) - Z.of_N (snd ij) =? - k)%Z) (last_two idx)).
(** [int], [float] and [cast] of booleans. *)
Definition b_of_bool (c : option (bool * dtype)) (b : bool) : option (dtype * elt) :=
  match c with
  | None => Some (BoolT, EB b)
  | Some (true, d) => if is_float d || dtype_beq d BoolT then None else Some (d, if b then one_of d else zero_of d)
  | Some (false, d) => if is_float d then Some (d, if b then one_of d else zero_of d) else None
  end%bool.
Definition fill_dims (e : menv) (s : fill_shape) : option (list Z) :=
  match s with
  | FStatic l => Some (map (fun v => Z.of_N (to_usize v)) l)
  | FRuntime x => match e x with Some (MShape l) => Some l | _ => None end
  end.
(** [#value as f64] or [as i64], then to the data type: only for values of it. *)
Definition fill_value (l : lit) (d : dtype) : option elt :=
  match l with LVal d' v => if dtype_beq d' d then Some v else None | LZero => Some (zero_of d) end.
Definition mrun (e : menv) (c : mcode) : option mval :=
  match c with
  | KNonZero k x => match e x with
      | Some (MTens _ t) => obind (mapo (not_equal_zero k) (tdata t)) (fun bs => option_map MInts (b_transpose2 (b_argwhere (mkT (tshape t) bs))))
      | _ => None end
  | KTri u x k => match e x with Some (MTens d t) => option_map (MTens d) (b_tri u k d t) | _ => None end
  | KEye x k c => match e x with
      | Some (MTens _ t) => obind (b_diag_mask (tshape t) k) (fun m => obind (mapo (fun b => b_of_bool c (negb b)) (tdata m)) (fun l =>
          Some (MTens (match c with Some (_, d) => d | None => BoolT end) (mkT (tshape t) (map snd l)))))
      | _ => None end
  | KLit (LVal d v) => Some (MScalar d v)
  | KLit LZero => Some (MScalar F32 (zero_of F32))
  | KBool b s => obind (fill_dims e s) (fun l => option_map (MTens BoolT) (tab (map to_usize l) (fun _ => Some (EB b))))
  | KFill l d r s => obind (fill_value l d) (fun v => obind (b_reshape (repeat 1 (N.to_nat r)) (mkT [1] [v])) (fun t =>
      obind (fill_dims e s) (fun dims => if (length dims =? N.to_nat r)%nat then option_map (MTens d) (b_expand dims t) else None)))
  | KArray (LVal I64 (EI z)) k => Some (MShape (repeat z (N.to_nat k)))
  | KArray _ _ => None
  end.
