(** The code emitted for Resize: crates/burn-onnx/src/burn/node/resize.rs and
    crates/onnx-ir/src/node/resize.rs.  Floats are real numbers; rounding is not modelled. *)
From Verif Require Export Pick_Model ShapeOps_Model.
From Verif Require Export Resize_Spec.
Import Resize_Spec Tensor_Spec.
Local Open Scope N_scope.

(** onnx-ir resize.rs:53-71, [ResizeConfig], without the values no code depends on. *)
Record rconf := mkRC { rc_mode : rmode; rc_scales : option (known (list R)); rc_sizes : option (known (list N)); rc_coord : string }.
(** onnx-ir resize.rs:41-50, [ResizeMode::from_str]; [to_lowercase] for ASCII. *)
Definition parse_mode (s : string) : option rmode :=
  let l := lower s in if String.eqb l "nearest" then Some Nearest else if String.eqb l "linear" then Some Linear else if String.eqb l "cubic" then Some Cubic else None.

Section Config.
  Variable value : arg -> option cval.
  (** onnx-ir resize.rs:125-170, [extract_scales_input]: [to_vec::<f32>().unwrap()] and the
      [assert!] are panics. *)
  Definition scales_input (n : rnode) (rank : N) (idx : nat) : ires (option (known (list R))) :=
    match nth_error (ninputs n) idx with
    | None => IOk None
    | Some a =>
        if is_optional a then IOk None else
        match aty a with
        | TensorT _ => match value a with
                       | Some (CF l) => if (length l =? 0)%nat then IOk None else if N.of_nat (length l) =? rank then IOk (Some (Static (skipn 2 l))) else IPanic
                       | Some _ => IPanic
                       | None => IOk (Some (Runtime idx))
                       end
        | ShapeT _ => IOk (Some (Runtime idx))
        | _ => IOk None
        end
    end.
  (** onnx-ir resize.rs:173-222, [extract_sizes_input].  An empty constant of another type
      gives an error of [to_vec]; Burn accepts any type for no elements, as here. *)
  Definition sizes_input (n : rnode) (rank : N) (idx : nat) : ires (option (known (list N))) :=
    match nth_error (ninputs n) idx with
    | None => IOk None
    | Some a =>
        if is_optional a then IOk None else
        match aty a with
        | TensorT _ => match value a with
                       | Some (CI64 l) => if (length l =? 0)%nat then IOk None else if N.of_nat (length l) =? rank then IOk (Some (Static (skipn 2 (map to_usize l)))) else IPanic
                       | Some _ => IPanic
                       | None => IOk (Some (Runtime idx))
                       end
        | ShapeT _ => IOk (Some (Runtime idx))
        | _ => IOk None
        end
    end.
  (** [into_string] panics on another kind. *)
  Definition str_attr (n : rnode) (key dflt : string) : ires string :=
    match get_attr n key with None => IOk dflt | Some (AString s) => IOk s | Some _ => IPanic end.
  (** onnx-ir resize.rs:423-506, [extract_config]; the attributes are read key by key. *)
  Definition resize_config (opset : N) (n : rnode) : ires rconf :=
    match ninputs n with
    | [] => IErr
    | x :: _ =>
        match aty x with
        | TensorT t =>
            ibind (match get_attr n "mode" with
                   | None => IOk None
                   | Some (AString s) => match parse_mode s with Some m => IOk (Some m) | None => IErr end
                   | Some _ => IPanic
                   end) (fun m =>
            ibind (str_attr n "coordinate_transformation_mode" (if opset <? 11 then "asymmetric" else "half_pixel")) (fun coord =>
            ibind (str_attr n "nearest_mode" "round_prefer_floor") (fun _ =>
            ibind (match get_attr n "cubic_coeff_a" with None | Some (AFloat _) => IOk tt | Some _ => IPanic end) (fun _ =>
            ibind (scales_input n (tt_rank t) (if opset <? 11 then 1%nat else 2%nat)) (fun sc =>
            ibind (if opset <? 11 then IOk None else sizes_input n (tt_rank t) 3) (fun sz =>
            match m with None => IErr | Some m => IOk (mkRC m sc sz coord) end))))))
        | _ => IErr
        end
    end.
  (** onnx-ir resize.rs:335-392: the attributes that must have their default; [into_i32]
      is taken to keep the number. *)
  Definition checked (n : rnode) (key : string) (test : attr -> ires bool) : ires unit :=
    match get_attr n key with None => IOk tt | Some a => ibind (test a) (fun ok : bool => if ok then IOk tt else IErr) end.
  Definition int_zero (a : attr) : ires bool := match a with AInt z => IOk (z =? 0)%Z | _ => IPanic end.
  Definition float_zero (a : attr) : ires bool := match a with AFloat w => IOk (zero_float w) | _ => IPanic end.
  Definition is_stretch (a : attr) : ires bool := match a with AString s => IOk (String.eqb (lower s) "stretch") | _ => IPanic end.
  (** onnx-ir resize.rs:256-421, [infer_types]. *)
  Definition infer_resize (opset : N) (n : rnode) : ires argty :=
    ibind (checked n "antialias" int_zero) (fun _ =>
    ibind (checked n "axes" (fun _ => IOk false)) (fun _ =>
    ibind (checked n "exclude_outside" int_zero) (fun _ =>
    ibind (checked n "extrapolation_value" float_zero) (fun _ =>
    ibind (checked n "keep_aspect_ratio_policy" is_stretch) (fun _ =>
    ibind (if 11 <=? opset then
             match nth_error (ninputs n) 1 with
             | Some roi => match value roi with Some (CF []) | None => IOk tt | Some (CF _) => IErr | Some _ => IPanic end
             | None => IOk tt
             end
           else IOk tt) (fun _ =>
    match resize_config opset n with
    | IOk c => match rc_scales c, rc_sizes c with
               | None, None => IErr
               | _, _ => match ninputs n with x :: _ => IOk (aty x) | [] => IPanic end
               end
    | _ => IPanic
    end)))))).
End Config.

(** ** Generation *)
Inductive rcode :=
| CModule (size : option (list N)) (scale : option (list R)) (m : rmode) (align : bool)   (* Interpolate1d, Interpolate2d *)
| CSizes (shape : bool) (m : rmode) (align : bool)
| CScales (shape : bool) (m : rmode) (align : bool).
(** resize.rs:12-236, [field] and [forward]; [None] is a panic of the generator, or code that
    uses a field that is not there (static sizes and another rank than 3 and 4). *)
Definition gen_resize (c : rconf) (n : rnode) : option rcode :=
  match ninputs n with
  | [] => None
  | x :: _ =>
      match aty x with
      | TensorT t =>
          let align := String.eqb (rc_coord c) "align_corners" in
          match rc_sizes c, rc_scales c with
          | Some (Runtime i), _ =>
              match option_map aty (nth_error (ninputs n) i) with
              | Some (ShapeT _) => Some (CSizes true (rc_mode c) align)
              | Some (TensorT _) => Some (CSizes false (rc_mode c) align)
              | _ => None
              end
          | _, Some (Runtime i) =>
              match option_map aty (nth_error (ninputs n) i) with
              | Some (ShapeT _) => Some (CScales true (rc_mode c) align)
              | Some (TensorT _) => Some (CScales false (rc_mode c) align)
              | _ => None
              end
          | None, None => None
          | sz, sc =>
              let k := if tt_rank t =? 3 then 1%nat else 2%nat in
              if (tt_rank t =? 3) || (tt_rank t =? 4) then
                Some (CModule (match sz with Some (Static l) => if (k <=? length l)%nat then Some (firstn k l) else None | _ => None end)
                              (match sc with Some (Static l) => if (k <=? length l)%nat then Some (firstn k l) else None | _ => None end) (rc_mode c) align)
              else None
          end
      | _ => None
      end
  end.

(** ** Burn's interpolation, taken to be PyTorch's: [Nearest] rounds [x * in / out] down,
    the others have the points at the corners or between them; the border is repeated. *)
Definition b_point (align : bool) (l o x : N) : R :=
  if align then (if o =? 1 then 0%R else (r_of x * (r_of l - 1) / (r_of o - 1))%R)
  else ((r_of x + /2) * r_of l / r_of o - /2)%R.
Definition b_taps (m : rmode) (align : bool) (l o : N) (x : N) : list (R * N) :=
  match m with
  | Nearest => [(1%R, x * l / o)]
  | Linear =>
      let c := Rmax 0 (b_point align l o x) in
      let f := rfloor c in
      let r := (c - IZR f)%R in
      [((1 - r)%R, N.min (Z.to_N f) (l - 1)); (r, N.min (Z.to_N (f + 1)) (l - 1))]
  | Cubic =>
      let c := b_point align l o x in
      let f := rfloor c in
      combine (cubic_weights (-3 / 4) (c - IZR f)) (map (fun k => inside l (f + k)) [-1; 0; 1; 2]%Z)
  end.
Definition b_interpolate (m : rmode) (align : bool) (out : list N) (x : rt) : option rt :=
  match tshape x with
  | b :: c :: sp =>
      if (length sp =? length out)%nat then
        Some (mk (b :: c :: out) (fun idx => match idx with i :: j :: pos => blend (map (fun lo => b_taps m align (fst lo) (snd lo)) (combine sp out)) pos (fun r => rd x (i :: j :: r)) | _ => 0%R end))
      else None
  | _ => None
  end.
(** [(d as f64 * s as f64) as usize]. *)
Definition scaled (d : N) (s : R) : N := Z.to_N (rfloor (r_of d * s)).
(** Running the code; [p] is the value of the sizes or scales at run time.  The function
    [interpolate] takes tensors of rank 4 only. *)
Definition run_resize (c : rcode) (p : option rval) (x : rt) : option rt :=
  match c with
  | CModule (Some o) _ m align => b_interpolate m align o x
  | CModule None (Some s) m align =>
      match tshape x with _ :: _ :: sp => b_interpolate m align (map (fun ls => scaled (fst ls) (snd ls)) (combine sp s)) x | _ => None end
  | CModule None None _ _ => None
  | CSizes shape m align =>
      match tshape x with
      | [_; _; _; _] =>
          match (if shape then match p with Some (VShape l) => Some l | _ => None end else match p with Some (VInts l) => Some l | _ => None end) with
          | Some (_ :: _ :: h :: w :: _) => b_interpolate m align [to_usize h; to_usize w] x
          | _ => None
          end
      | _ => None
      end
  | CScales shape m align =>
      match tshape x with
      | [_; _; ih; iw] =>
          match (if shape then match p with Some (VShape l) => Some (map IZR l) | _ => None end else match p with Some (VFloats l) => Some l | _ => None end) with
          | Some (_ :: _ :: h :: w :: _) => b_interpolate m align [scaled ih h; scaled iw w] x
          | _ => None
          end
      | _ => None
      end
  end.
