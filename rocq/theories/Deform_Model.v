(** The importer's and the code generator's parts for DeformConv:
    crates/onnx-ir/src/node/deform_conv.rs and crates/burn-onnx/src/burn/node/deform_conv.rs. *)
From Verif Require Export Conv_Model Deform_Spec.
From Verif Require Import Linear_Model.
Import Conv_Spec Tensor_Spec.
Local Open Scope N_scope.

(** crates/onnx-ir/src/ir/node.rs:36-38 [get_input]. *)
Definition get_input (n : rnode) (i : nat) : option arg :=
  match nth_error (ninputs n) i with Some a => if is_optional a then None else Some a | None => None end.

Record deform_conf := mkDeform { dc_kernel : list N; dc_stride : list N; dc_begin : list N; dc_end : list N; dc_dilation : list N; dc_group : N; dc_ogroup : N }.
Section Config.
  Variable value : arg -> option cval.
  (** onnx-ir/src/node/deform_conv.rs:268-330 [extract_config].  Errors and panics while going
      through the attributes in the order of the map are not told apart. *)
  Definition deform_config (n : rnode) : ires deform_conf :=
    ibind (attr_i64s_or n "kernel_shape" []) (fun kernel =>
    ibind (attr_i64s_or n "strides" (repeat 1%Z 2)) (fun strides =>
    ibind (attr_i64s_or n "pads" (repeat 0%Z 4)) (fun pads =>
    ibind (attr_i64s_or n "dilations" (repeat 1%Z 2)) (fun dilations =>
    ibind (attr_i64_or n "group" 1) (fun group =>
    ibind (attr_i64_or n "offset_group" 1) (fun ogroup =>
    ibind (padding_config 2 pads) (fun pad =>
    ibind (match kernel with
           | [] => match nth_error (ninputs n) 1 with
                   | None => IPanic
                   | Some a =>
                       match (match value a with Some v => Some (cv_shape v) | None => static_shape_known (aty a) end) with
                       | None => IErr
                       | Some s => if Nat.eqb (length s) 4 then IOk (skipn 2 s) else IErr
                       end
                   end
           | _ => first_k 2 kernel end) (fun ks =>
    ibind (first_k 2 strides) (fun ss =>
    ibind (first_k 2 dilations) (fun ds =>
    IOk (mkDeform ks ss (fst pad) (snd pad) ds (to_usize group) (to_usize ogroup)))))))))))).

  (** Lines 80-160 and 162-193: the type [TensorT] with the given rank and, except for X, the
      type of its elements. *)
  Definition tensor_of_rank (r : N) (dt : option dtype) (a : arg) : ires tensor_type :=
    match aty a with
    | TensorT t => if tt_rank t =? r then match dt with Some d => if dtype_beq (tt_dtype t) d then IOk t else IErr | None => IOk t end else IErr
    | _ => IErr
    end.
  Definition optional_of_rank (r : N) (dt : dtype) (a : option arg) : ires unit :=
    match a with None => IOk tt | Some a => ibind (tensor_of_rank r (Some dt) a) (fun _ => IOk tt) end.
  Definition known_dim (t : tensor_type) (i : nat) : option N :=
    match tt_shape t with Some s => match nth_error s i with Some d => d | None => None end | None => None end.
  (** Lines 211-230 [compute_spatial]; [isize] is unbounded here. *)
  Definition spatial_size (t : tensor_type) (i : nat) (kernel stride dilation pb pe : N) : option N :=
    match known_dim t i with
    | None => None
    | Some d =>
        let numerator := (Z.of_N d + Z.of_N (pb + pe) - Z.of_N dilation * (Z.of_N kernel - 1) - 1)%Z in
        if (numerator <? 0)%Z || (stride =? 0) then None else Some (Z.to_N numerator / stride + 1)
    end.
  (** Lines 72-266 [infer_types]: the type of the output. *)
  Definition deform_infer (n : rnode) : ires argty :=
    match ninputs n with
    | x :: wa :: o :: _ =>
        ibind (tensor_of_rank 4 None x) (fun t =>
        ibind (tensor_of_rank 4 (Some (tt_dtype t)) wa) (fun wt =>
        ibind (tensor_of_rank 4 (Some (tt_dtype t)) o) (fun _ =>
        ibind (optional_of_rank 1 (tt_dtype t) (get_input n 3)) (fun _ =>
        ibind (optional_of_rank 4 (tt_dtype t) (get_input n 4)) (fun _ =>
        let out_channels := match value wa with
                            | Some v => match cv_shape v with d :: _ => Some d | [] => known_dim wt 0 end
                            | None => known_dim wt 0
                            end in
        match deform_config n with
        | IPanic => IPanic
        | IErr => IOk (TensorT (mkTT (tt_dtype t) 4 (Some [known_dim t 0; out_channels; None; None])))
        | IOk c =>
            let at2 := fun l i => nth i l 0 in
            let sp := fun i => spatial_size t (2 + i) (at2 (dc_kernel c) i) (at2 (dc_stride c) i) (at2 (dc_dilation c) i) (at2 (dc_begin c) i) (at2 (dc_end c) i) in
            IOk (TensorT (mkTT (tt_dtype t) 4 (Some [known_dim t 0; out_channels; sp 0%nat; sp 1%nat])))
        end)))))
    | _ => IPanic
    end.
End Config.

Section Module_.
  Context {T : Type} (add mul : T -> T -> T) (zero : T) (of_int : Z -> T) (interp : (Z -> Z -> T) -> T -> T -> T).
  Variable value : arg -> option (tensor T).

  (** [burn::nn::conv::DeformConv2d] (not part of this repository) with its parameters loaded.
      A weight is [channels_out, channels_in / weight_groups, kernel].  The [offset] has two
      channels, first the vertical one, per element of the kernel, rows first, in each offset
      group.  The input is zero outside.  Padding that differs at the two ends of an axis is
      not modelled (no result). *)
  Record deform_mod := mkDeformM { dm_in : N; dm_out : N; dm_kernel : list N; dm_stride : list N; dm_dilation : list N; dm_pad : option (list N); dm_groups : N; dm_ogroups : N;
                                   dm_weight : tensor T; dm_bias : option (tensor T) }.
  Definition burn_pixel (x : tensor T) (i ch : N) (py px : Z) : T :=
    if (py <? 0)%Z || (px <? 0)%Z then zero else peek zero x [i; ch; Z.to_N py; Z.to_N px].
  Definition deform_forward (m : deform_mod) (x offset : tensor T) (mask : option (tensor T)) : option (tensor T) :=
    match tshape x, dm_kernel m, dm_stride m, dm_dilation m with
    | [n; c; h; w], [kh; kw], [sh; sw], [lh; lw] =>
        match burn_padding 2 (dm_pad m) with
        | ([pt; pl], [pb; pr]) =>
            if (c =? dm_in m) && (pt =? pb) && (pl =? pr) then
              match out_sizes (fun _ _ _ _ _ _ => 0) false [kh; kw] [sh; sw] [lh; lw] [pt; pl] [pb; pr] [h; w] with
              | Some os =>
                  let cg := dm_in m / dm_groups m in
                  let og := dm_out m / dm_groups m in
                  let per_offset := dm_in m / dm_ogroups m in
                  tab (n :: dm_out m :: os) (fun idx => match idx with
                    | [i; j; oy; ox] =>
                        Some (burn_bias add zero (dm_bias m) j (sum add zero (upto cg) (fun ch => sum add zero (indices [kh; kw]) (fun q =>
                          match q with
                          | [ky; kx] =>
                              let src := cg * (j / og) + ch in
                              let at_mask := (src / per_offset) * (kh * kw) + ky * kw + kx in
                              let at_offset := (src / per_offset) * (2 * (kh * kw)) + 2 * (ky * kw + kx) in
                              let y := add (of_int (Z.of_N (oy * sh + ky * lh) - Z.of_N pt)%Z) (peek zero offset [i; at_offset; oy; ox]) in
                              let x' := add (of_int (Z.of_N (ox * sw + kx * lw) - Z.of_N pl)%Z) (peek zero offset [i; at_offset + 1; oy; ox]) in
                              let v := interp (burn_pixel x i src) y x' in
                              mul (match mask with Some t => mul v (peek zero t [i; at_mask; oy; ox]) | None => v end) (peek zero (dm_weight m) [j; ch; ky; kx])
                          | _ => zero
                          end))))
                    | _ => None end)
              | None => None
              end
            else None
        | _ => None
        end
    | _, _, _, _ => None
    end.

  (** burn-onnx/src/burn/node/deform_conv.rs:13-51 [field] and 53-77 [collect_snapshots]: the
      module with its data loaded.  Burn refuses channels that the weight groups do not divide,
      and data whose shape is not that of the parameter. *)
  Definition deform_module (n : rnode) : ires deform_mod :=
    ibind (iexpect (deform_config (shapes value) n)) (fun c =>
    match ninputs n with
    | _ :: wa :: _ =>
        match static_shape_known (aty wa) with
        | Some (s0 :: s1 :: _) =>
            let cin := s1 * dc_group c in
            if (dc_group c =? 0) || negb (cin mod dc_group c =? 0) || negb (s0 mod dc_group c =? 0) then IErr
            else
              let pad := if forallb (N.eqb 0) (dc_begin c ++ dc_end c) then None else Some (dc_begin c ++ dc_end c) in
              match snapshot value wa with
              | Some W =>
                  if eqs (tshape W) (s0 :: cin / dc_group c :: dc_kernel c) then
                    ibind (match get_input n 3 with
                           | Some b => match snapshot value b with
                                       | Some B => if eqs (tshape B) [s0] then IOk (Some B) else IErr
                                       | None => IErr end
                           | None => IOk None end) (fun B =>
                    IOk (mkDeformM cin s0 (dc_kernel c) (dc_stride c) (dc_dilation c) pad (dc_group c) (dc_ogroup c) W B))
                  else IErr
              | None => IErr
              end
        | _ => IPanic
        end
    | _ => IPanic
    end).
  (** Lines 79-99 [forward]. *)
  Definition deform_run (n : rnode) (e : string -> option (tensor T)) : option (string * tensor T) :=
    match deform_module n, ninputs n, noutputs n with
    | IOk m, x :: _ :: o :: _, y :: _ =>
        match e (aname x), e (aname o) with
        | Some X, Some F =>
            match get_input n 4 with
            | Some a => match e (aname a) with Some M => option_map (pair (aname y)) (deform_forward m X F (Some M)) | None => None end
            | None => option_map (pair (aname y)) (deform_forward m X F None)
            end
        | _, _ => None
        end
    | _, _, _ => None
    end.
End Module_.
