(** The importer's and the code generator's parts for RandomNormal, RandomUniform,
    RandomNormalLike, RandomUniformLike, Bernoulli, GridSample and Size:
    crates/onnx-ir/src/node/{random,random_like,bernoulli,grid_sample,size}.rs and
    crates/burn-onnx/src/burn/node/ with the same names (random_normal.rs and so on). *)
From Verif Require Export RankOps_Model Sample_Spec.
From Verif Require Import Names_Model Fold_Model Payload_Model.
Import Tensor_Spec.
Local Open Scope N_scope.

(** ** Attributes *)
(** [DataType::from_i32(val.into_i32()).unwrap()]; the codes are those of
    crates/onnx-ir/src/protos/onnx.proto:605-660. *)
Definition data_type (n : rnode) : ires (option Z) :=
  match get_attr n "dtype" with
  | None => IOk None
  | Some (AInt z) => let c := as_i32 z in if ((0 <=? c) && (c <=? 26))%Z then IOk (Some c) else IPanic
  | Some _ => IPanic
  end.
(** onnx-ir random.rs:128-151 and random_like.rs:94-111: the element type of the output. *)
Definition random_type (like : bool) (n : rnode) : ires dtype :=
  ibind (data_type n) (fun c =>
  match c with
  | None => IOk F32
  | Some c => if (c =? 1)%Z then IOk F32 else if (c =? 11)%Z then IOk F64 else if like && (c =? 10)%Z then IOk F16 else IErr
  end).
(** random.rs:105-162 and random_like.rs:83-127 [infer_types]. *)
Definition random_infer (n : rnode) : ires argty :=
  ibind (data_type n) (fun _ =>
  match get_attr n "shape" with
  | None => IErr
  | Some a => ibind (attr_i64s a) (fun l => ibind (random_type false n) (fun d => IOk (TensorT (mkTT d (N.of_nat (length l)) None))))
  end).
Definition random_like_infer (n : rnode) : ires argty :=
  ibind (random_type true n) (fun d =>
  match ninputs n with
  | [] => IPanic
  | x :: _ => match aty x with TensorT t => IOk (TensorT (mkTT d (tt_rank t) (tt_shape t))) | _ => IErr end
  end).
(** onnx-ir bernoulli.rs:44-92 [infer_types]. *)
Definition bernoulli_infer (n : rnode) : ires argty :=
  match ninputs n with
  | [] => IPanic
  | x :: _ => match aty x with
              | TensorT t =>
                  ibind (data_type n) (fun c =>
                  let d := match c with
                           | None => tt_dtype t
                           | Some c => if (c =? 1)%Z then F32 else if (c =? 6)%Z then I32 else if (c =? 7)%Z then I64 else if (c =? 11)%Z then F64 else if (c =? 9)%Z then BoolT else tt_dtype t
                           end in
                  IOk (TensorT (mkTT d (tt_rank t) (tt_shape t))))
              | _ => IErr
              end
  end.

(** onnx-ir grid_sample.rs:34-43, 58-67 [from_str] and 178-219 [extract_config].
    [to_lowercase] is modelled for ASCII. *)
Definition parse_mode (s : string) : ires gmode :=
  let s := lower s in
  if String.eqb s "bilinear" || String.eqb s "linear" then IOk GLinear
  else if String.eqb s "nearest" then IOk GNearest
  else if String.eqb s "bicubic" || String.eqb s "cubic" then IOk GCubic
  else IErr.
Definition parse_padding (s : string) : ires gpad :=
  let s := lower s in
  if String.eqb s "zeros" then IOk GZeros else if String.eqb s "border" then IOk GBorder else if String.eqb s "reflection" then IOk GReflection else IErr.
Definition grid_config (n : rnode) : ires (gmode * gpad * bool) :=
  ibind (match get_attr n "mode" with None => IOk GLinear | Some (AString s) => parse_mode s | Some _ => IPanic end) (fun m =>
  ibind (match get_attr n "padding_mode" with None => IOk GZeros | Some (AString s) => parse_padding s | Some _ => IPanic end) (fun p =>
  ibind (match get_attr n "align_corners" with None => IOk false | Some (AInt z) => IOk (negb (as_i32 z =? 0)%Z) | Some _ => IPanic end) (fun a =>
  IOk (m, p, a)))).
(** grid_sample.rs:118-176 [infer_types]. *)
Definition grid_infer (opset : N) (n : rnode) : ires argty :=
  match ninputs n with
  | x :: g :: _ =>
      match aty x, aty g with
      | TensorT t, TensorT u =>
          if (opset <? 20) && negb (tt_rank t =? 4) then IErr
          else if negb (tt_rank u =? tt_rank t) then IErr
          else ibind (grid_config n) (fun c =>
               match fst (fst c) with
               | GCubic => if tt_rank t =? 4 then IOk (TensorT (mkTT (tt_dtype t) (tt_rank t) None)) else IErr
               | _ => IOk (TensorT (mkTT (tt_dtype t) (tt_rank t) None))
               end)
      | _, _ => IErr
      end
  | _ => IPanic
  end.

Section Code.
  Context {T : Type} (num : N -> T) (zero one : T).
  (** [into_f32() as f64]: 0 and 1 are the defaults. *)
  Definition number_or (n : rnode) (key : string) (default : T) : ires T :=
    match get_attr n key with None => IOk default | Some (AFloat b) => IOk (num b) | Some _ => IPanic end.
  Definition normal_config (n : rnode) : ires (dist T) :=
    ibind (number_or n "mean" zero) (fun m => ibind (number_or n "scale" one) (fun s => IOk (Normal m s))).
  Definition uniform_config (n : rnode) : ires (dist T) :=
    ibind (number_or n "low" zero) (fun l => ibind (number_or n "high" one) (fun h => IOk (Uniform l h))).
  (** random.rs:164-217, random_like.rs:129-171 [extract_config]. *)
  Definition random_config (n : rnode) : ires (dist T) :=
    if String.eqb (ntype n) "RandomNormal" || String.eqb (ntype n) "RandomNormalLike" then normal_config n
    else if String.eqb (ntype n) "RandomUniform" || String.eqb (ntype n) "RandomUniformLike" then uniform_config n
    else IErr.

  (** What is emitted.  [dist_default] is [Distribution::Default]. *)
  Inductive scode :=
  | Random (shape : list N) (d : dist T)              (** [Tensor::random(Shape::new([..]), d, device)] *)
  | RandomLike (x : string) (d : dist T)              (** [x.random_like(d)] *)
  | DefaultLower (x : string) (cast : option dtype)   (** [x.random_like(Distribution::Default).lower(x)], then [.int().cast(..)] or [.float().cast(..)] *)
  | GridSample2d (x g : string) (m : gmode) (p : gpad) (align : bool)
  | FieldShape (x : string).                          (** [x.shape.num_elements()] *)

  (** random_normal.rs:13-30, random_uniform.rs:13-30.  [quote!] cannot print a number that is
      not finite; this is not modelled. *)
  Definition random_forward (n : rnode) : ires scode :=
    ibind (iexpect (match get_attr n "shape" with None => IErr | Some a => attr_i64s a end)) (fun s =>
    ibind (iexpect (random_config n)) (fun d => IOk (Random (map to_usize s) d))).
  (** random_normal_like.rs:12-25, random_uniform_like.rs:12-25. *)
  Definition random_like_forward (n : rnode) : ires scode :=
    ibind (iexpect (random_config n)) (fun d => match ninputs n with [] => IPanic | x :: _ => IOk (RandomLike (aname x) d) end).
  (** burn/node/bernoulli.rs:13-46; [out] is the inferred type of the output. *)
  Definition bernoulli_forward (n : rnode) (out : argty) : ires scode :=
    match ninputs n with
    | [] => IPanic
    | x :: _ => IOk (DefaultLower (aname x) (match out with TensorT t => if dtype_beq (tt_dtype t) BoolT then None else Some (tt_dtype t) | _ => None end))
    end.
  (** burn/node/grid_sample.rs:13-55. *)
  Definition grid_forward (n : rnode) : ires scode :=
    ibind (iexpect (grid_config n)) (fun c =>
    match ninputs n with x :: g :: _ => IOk (GridSample2d (aname x) (aname g) (fst (fst c)) (snd (fst c)) (snd c)) | _ => IPanic end).
  (** burn/node/size.rs:12-19. *)
  Definition size_forward (n : rnode) : ires scode := match ninputs n with [] => IPanic | x :: _ => IOk (FieldShape (aname x)) end.

  (** ** Running it (Burn is not part of this repository) *)
  Variable source : dist T -> N -> T.
  Variable less : T -> T -> bool.
  Variable sampler : gmode -> gpad -> bool -> N -> N -> (N -> N -> option T) -> T -> T -> option T.
  (** The type of the elements the backend makes when none is given. *)
  Variable default_float : dtype.
  Inductive svalue := Numbers (v : typed T) | Bits (v : typed bool).
  (** A tensor has no field [shape]: [None]. *)
  Definition run_code (e : string -> option (typed T)) (c : scode) : option svalue :=
    match c with
    | Random s d => Some (Numbers (default_float, mkT s (map (source d) (upto (prodN s)))))
    | RandomLike x d => match e x with Some (ty, t) => Some (Numbers (ty, mkT (tshape t) (map (source d) (upto (prodN (tshape t)))))) | None => None end
    | DefaultLower x cast =>
        match e x with
        | Some (_, t) =>
            let r := map (source (Uniform zero one)) (upto (prodN (tshape t))) in
            Some (Bits (match cast with None => BoolT | Some d => d end, mkT (tshape t) (map (fun up => less (fst up) (snd up)) (combine r (tdata t)))))
        | None => None
        end
    | GridSample2d x g m p a =>
        match e x, e g with
        | Some (ty, t), Some (_, gt) =>
            match tshape t, tshape gt with
            | [n; ch; h; w], [n'; oh; ow; two] =>
                if (n' =? n) && (two =? 2) then
                  option_map (fun r => Numbers (ty, r)) (tab [n; ch; oh; ow] (fun idx => match idx with
                    | [i; j; y; x] => match get gt [i; y; x; 0], get gt [i; y; x; 1] with Some gx, Some gy => sampler m p a h w (fun y x => get t [i; j; y; x]) gx gy | _, _ => None end
                    | _ => None end))
                else None
            | _, _ => None
            end
        | _, _ => None
        end
    | FieldShape _ => None
    end.
End Code.
