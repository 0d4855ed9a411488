(** The importer's and the code generator's parts for convolutions and pooling:
    crates/onnx-ir/src/node/{conv1d,conv2d,conv3d,conv_transpose1d,conv_transpose2d,
    conv_transpose3d,max_pool1d,max_pool2d,avg_pool1d,avg_pool2d,global_avg_pool}.rs and
    crates/burn-onnx/src/burn/node/ with the same names (conv_transpose_1d.rs and so on).
    The files for one, two and three spatial axes repeat each other; they are modelled by one
    function of the number [k] of axes.  The configuration of Conv is [conv_config] of
    RankOps_Model.  Sizes ([usize] in the code) are unbounded here, except where [as usize]
    makes one of a number in the model. *)
From Verif Require Export RankOps_Model Conv_Spec.
From Verif Require Import Linear_Model.
Import Conv_Spec Tensor_Spec.
Local Open Scope N_scope.

(** ** Configuration *)
(** node/max_pool1d.rs:157-190, max_pool2d.rs:153-186, avg_pool1d.rs:136-171,
    avg_pool2d.rs:134-169 [extract_config].  [pc_pad] is the begins and the ends (zeros
    for [Valid]).  [count_include_pad] is read for AveragePool only. *)
Record pool_conf := mkPool { pc_kernel : list N; pc_stride : list N; pc_begin : list N; pc_end : list N; pc_dilation : list N;
                             pc_ceil : bool; pc_include_pad : bool; pc_auto : auto_pad }.
Definition pool_config (k : nat) (avg : bool) (n : rnode) : ires pool_conf :=
  ibind (attr_i64s_or n "kernel_shape" []) (fun kernel =>
  ibind (attr_i64s_or n "strides" (repeat 1%Z k)) (fun strides =>
  ibind (attr_i64s_or n "pads" (repeat 0%Z (2 * k))) (fun pads =>
  ibind (attr_i64s_or n "dilations" (repeat 1%Z k)) (fun dilations =>
  ibind (attr_i64_or n "ceil_mode" 0) (fun ceil =>
  ibind (if avg then attr_i64_or n "count_include_pad" 0 else IOk 0%Z) (fun include =>
  ibind (match get_attr n "auto_pad" with Some a => parse_auto_pad a | None => IOk NotSet end) (fun auto =>
  ibind (padding_config k pads) (fun pad =>
  ibind (first_k k kernel) (fun ks =>
  ibind (first_k k strides) (fun ss =>
  ibind (first_k k dilations) (fun ds =>
  IOk (mkPool ks ss (fst pad) (snd pad) ds (ceil =? 1)%Z (include =? 1)%Z auto)))))))))))).

(** node/max_pool1d.rs:107-153, max_pool2d.rs:104-148 and avg_pool1d.rs:80-118,
    avg_pool2d.rs:79-116: the checks of [infer_types].  Errors and panics while going through
    the attributes in the order of the map are not told apart. *)
Definition pool_checks (avg : bool) (opset : N) (n : rnode) : ires unit :=
  let known := ["kernel_shape"; "strides"; "pads"; "dilations"; "ceil_mode"; "auto_pad"; if avg then "count_include_pad" else "storage_order"]%string in
  if negb (forallb (fun kv => mem_str (fst kv) known) (nattrs n)) then IErr
  else
  ibind (match get_attr n "dilations" with
         | Some a => ibind (attr_i64s a) (fun l => if existsb (fun d => negb (d =? 1)%Z) l && (opset <? (if avg then 10 else 11)) then IErr else IOk tt)
         | None => IOk tt end) (fun _ =>
  ibind (match get_attr n "auto_pad" with Some a => ibind (parse_auto_pad a) (fun _ => IOk tt) | None => IOk tt end) (fun _ =>
  match get_attr n "ceil_mode" with
  | Some a => ibind (attr_i64 a) (fun c => if negb (c =? 0)%Z && (opset <? (if avg then 19 else 10)) then IErr else IOk tt)
  | None => IOk tt
  end)).

Section Config.
  Variable value : arg -> option cval.
  (** node/conv_transpose1d.rs:111-173, conv_transpose2d.rs:112-181,
      conv_transpose3d.rs:85-178 [extract_config], with the check of [auto_pad] (in
      [infer_types] for one and two axes, 77-109 and 78-110). *)
  Record tconv_conf := mkTconv { tc_kernel : list N; tc_stride : list N; tc_dilation : list N; tc_pad : list N; tc_out : list N; tc_group : N }.
  Definition tconv_attrs : list string := ["kernel_shape"; "strides"; "pads"; "dilations"; "group"; "output_padding"; "auto_pad"]%string.
  Definition weight_kernel (k : nat) (i1 : option arg) : ires (list N) :=
    match i1 with
    | None => IPanic
    | Some a => match value a with
                | None => IErr
                | Some w => if Nat.eqb (length (cv_shape w)) (k + 2) then IOk (skipn 2 (cv_shape w)) else IErr
                end
    end.
  Fixpoint zs_eqb (a b : list Z) : bool := match a, b with [], [] => true | x :: a, y :: b => (x =? y)%Z && zs_eqb a b | _, _ => false end.
  Definition tconv_config (k : nat) (n : rnode) : ires tconv_conf :=
    if negb (forallb (fun kv => mem_str (fst kv) tconv_attrs) (nattrs n)) then IErr
    else
    ibind (match get_attr n "auto_pad" with
           | Some (AString s) => if String.eqb s "NOTSET" then IOk tt else IErr
           | Some _ => IPanic
           | None => IOk tt end) (fun _ =>
    ibind (attr_i64s_or n "kernel_shape" []) (fun kernel =>
    ibind (attr_i64s_or n "strides" (repeat 1%Z k)) (fun strides =>
    ibind (attr_i64s_or n "pads" (repeat 0%Z (2 * k))) (fun pads =>
    ibind (attr_i64s_or n "dilations" (repeat 1%Z k)) (fun dilations =>
    ibind (attr_i64_or n "group" 1) (fun group =>
    ibind (attr_i64s_or n "output_padding" (repeat 0%Z k)) (fun outp =>
    ibind (if Nat.eqb k 1 then
             if negb (Nat.eqb (length pads) 2) || negb (zs_eqb (firstn 1 pads) (skipn 1 pads)) then IErr
             else match nth_error (ninputs n) 1 with
                  | None => IPanic
                  | Some a => match value a with None => IErr | Some _ => IOk tt end end
           else if Nat.ltb (length pads) (2 * k) then IPanic
           else if existsb (fun z => z <? 0)%Z (firstn (2 * k) pads) then IErr
           else if zs_eqb (firstn k pads) (firstn k (skipn k pads)) then IOk tt else IErr) (fun _ =>
    ibind (match kernel with [] => weight_kernel k (nth_error (ninputs n) 1) | _ => first_k k kernel end) (fun ks =>
    ibind (first_k k strides) (fun ss =>
    ibind (first_k k dilations) (fun ds =>
    ibind (first_k k pads) (fun ps =>
    ibind (first_k k outp) (fun os =>
    IOk (mkTconv ks ss ds ps os (to_usize group))))))))))))))).
End Config.

(** ** Padding in the emitted code *)
(** crates/burn-onnx/src/burn/codegen.rs:174-198 [compute_auto_pad_1dim].  A subtraction that
    goes below zero is a panic here (so it is in a debug build; a release build wraps around). *)
Definition compute_auto_pad_1dim (auto : auto_pad) (input kernel stride dilation : N) : ires (N * N) :=
  match auto with
  | Valid => IOk (0, 0)
  | NotSet => IPanic
  | _ =>
      if (kernel =? 0) || (stride =? 0) || (input =? 0) then IPanic
      else
        let effective := (kernel - 1) * dilation + 1 in
        let output := input / stride + (if input mod stride =? 0 then 0 else 1) in
        let total := (output - 1) * stride + effective - input in
        let small := total / 2 in
        let big := total - small in
        IOk (match auto with SameUpper => (small, big) | _ => (big, small) end)
  end.
Fixpoint compute_auto_pads (auto : auto_pad) (input kernel stride dilation : list N) : ires (list N * list N) :=
  match kernel, stride, dilation with
  | k :: kernel, s :: stride, l :: dilation =>
      match input with
      | [] => IPanic
      | d :: input => ibind (compute_auto_pad_1dim auto d k s l) (fun p => ibind (compute_auto_pads auto input kernel stride dilation) (fun r => IOk (fst p :: fst r, snd p :: snd r)))
      end
  | _, _, _ => IOk ([], [])
  end.
(** codegen.rs:203-271 [resolve_auto_pad_1d], [_2d], [_3d]: [None] is [Valid].  That
    [padding_config_*] gives [Valid] for zeros is in the first case. *)
Definition resolve_auto_pad (auto : auto_pad) (pb pe : list N) (spatial : option (list N)) (kernel stride dilation : list N) : ires (option (list N * list N)) :=
  match auto with
  | NotSet => IOk (if forallb (N.eqb 0) (pb ++ pe) then None else Some (pb, pe))
  | Valid => IOk None
  | _ => match spatial with
         | None => IPanic
         | Some l => ibind (compute_auto_pads auto l kernel stride dilation) (fun p => IOk (Some p))
         end
  end.
(** codegen.rs:114-165 [to_tokens]: the arguments of [Explicit]. *)
Definition padding_tokens (k : nat) (p : option (list N * list N)) : ires (option (list N)) :=
  match p with
  | None => IOk None
  | Some (b, e) => if Nat.eqb k 3 then (if eqs b e then IOk (Some b) else IPanic) else IOk (Some (b ++ e))
  end.
(** conv1d.rs:29-30 and the others: [shape.as_deref().map(|s| &s[2..])]. *)
Definition input_spatial (n : rnode) : ires (option (list N)) :=
  match ninputs n with
  | [] => IPanic
  | x :: _ => match static_shape_known (aty x) with
              | None => IOk None
              | Some (_ :: _ :: l) => IOk (Some l)
              | Some _ => IPanic
              end
  end.

(** [burn::nn::PaddingConfig1d], [PaddingConfig2d], [PaddingConfig3d] (not part of this
    repository): [Explicit(left, right)], [Explicit(top, left, bottom, right)] and
    [Explicit(depth, height, width)], the last for both ends. *)
Definition burn_padding (k : nat) (p : option (list N)) : list N * list N :=
  match p with
  | None => (repeat 0 k, repeat 0 k)
  | Some l => if Nat.eqb k 3 then (l, l) else (firstn k l, skipn k l)
  end.

Section Modules.
  Context {T : Type} (add mul : T -> T -> T) (zero : T).
  Variable value : arg -> option (tensor T).
  Definition shapes (a : arg) : option cval := option_map (fun t => mkC (tshape t) F32 None) (value a).

  (** ** Modules of Burn (not part of this repository) *)
  (** An element of a tensor, [v] outside of it. *)
  Fixpoint within (s idx : list N) : bool :=
    match s, idx with d :: s, i :: idx => (i <? d) && within s idx | [], [] => true | _, _ => false end.
  Definition peek (v : T) (t : tensor T) (idx : list N) : T :=
    if within (tshape t) idx then match get t idx with Some a => a | None => v end else v.
  Fixpoint plus2 (a b : list N) : list N := match a, b with x :: a, y :: b => x + y :: plus2 a b | _, _ => [] end.
  Fixpoint minus2 (a b : list N) : list N := match a, b with x :: a, y :: b => x - y :: minus2 a b | _, _ => [] end.
  Fixpoint leq2 (a b : list N) : bool := match a, b with x :: a, y :: b => (x <=? y) && leq2 a b | _, _ => true end.
  (** The input with [v] around it. *)
  Definition pad_spatial (v : T) (b e : list N) (x : tensor T) : option (tensor T) :=
    match tshape x with
    | n :: c :: ds =>
        tab (n :: c :: plus2 (plus2 b ds) e) (fun idx => match idx with
          | i :: j :: p => if leq2 b p && within ds (minus2 p b) then get x (i :: j :: minus2 p b) else Some v
          | _ => None end)
    | _ => None
    end.
  (** The number of windows; a kernel that does not fit is an error.  With [ceil_mode] it is
      [ceil_count], a function of the kernel, stride, dilation, padding and size. *)
  Variable ceil_count : N -> N -> N -> N -> N -> N -> N.
  Fixpoint out_sizes (ceil : bool) (ks ss dl bs es ds : list N) : option (list N) :=
    match ks, ss, dl, bs, es, ds with
    | k :: ks, s :: ss, l :: dl, b :: bs, e :: es, d :: ds =>
        if d + b + e <? l * (k - 1) + 1 then None
        else option_map (cons (if ceil then ceil_count k s l b e d else (d + b + e - l * (k - 1) - 1) / s + 1)) (out_sizes ceil ks ss dl bs es ds)
    | [], [], [], [], [], [] => Some []
    | _, _, _, _, _, _ => None
    end.
  Fixpoint strided (ss dl os qs : list N) : list N :=
    match ss, dl, os, qs with s :: ss, l :: dl, o :: os, q :: qs => o * s + q * l :: strided ss dl os qs | _, _, _, _ => [] end.
  Definition burn_bias (b : option (tensor T)) (j : N) (y : T) : T := match b with Some b => add y (peek zero b [j]) | None => y end.

  (** [burn::nn::conv::Conv1d], [Conv2d], [Conv3d] with their parameters loaded.  A weight is
      [channels_out, channels_in / groups, kernel]. *)
  Record conv_mod := mkConvM { cm_in : N; cm_out : N; cm_kernel : list N; cm_stride : list N; cm_dilation : list N; cm_pad : option (list N); cm_groups : N;
                               cm_weight : tensor T; cm_bias : option (tensor T) }.
  Definition conv_forward (k : nat) (m : conv_mod) (x : tensor T) : option (tensor T) :=
    match tshape x with
    | n :: c :: ds =>
        if c =? cm_in m then
          let (b, e) := burn_padding k (cm_pad m) in
          match pad_spatial zero b e x, out_sizes false (cm_kernel m) (cm_stride m) (cm_dilation m) b e ds with
          | Some xp, Some os =>
              let cg := cm_in m / cm_groups m in
              let og := cm_out m / cm_groups m in
              tab (n :: cm_out m :: os) (fun idx => match idx with
                | i :: j :: o => Some (burn_bias (cm_bias m) j (sum add zero (upto cg) (fun ch => sum add zero (indices (cm_kernel m)) (fun q =>
                    mul (peek zero xp (i :: cg * (j / og) + ch :: strided (cm_stride m) (cm_dilation m) o q)) (peek zero (cm_weight m) (j :: ch :: q))))))
                | _ => None end)
          | _, _ => None
          end
        else None
    | _ => None
    end.

  (** [ConvTranspose1d], [ConvTranspose2d], [ConvTranspose3d].  A weight is [channels_in,
      channels_out / groups, kernel]; [tm_pad] is cut off at both ends. *)
  Record tconv_mod := mkTconvM { tm_in : N; tm_out : N; tm_kernel : list N; tm_stride : list N; tm_dilation : list N; tm_pad : list N; tm_pad_out : list N; tm_groups : N;
                                 tm_weight : tensor T; tm_bias : option (tensor T) }.
  Fixpoint tout_sizes (ks ss dl ps op ds : list N) : option (list N) :=
    match ks, ss, dl, ps, op, ds with
    | k :: ks, s :: ss, l :: dl, p :: ps, o :: op, d :: ds =>
        let full := (d - 1) * s + (l * (k - 1) + 1) + o in
        if (full <? 2 * p) || (d =? 0) then None else option_map (cons (full - 2 * p)) (tout_sizes ks ss dl ps op ds)
    | [], [], [], [], [], [] => Some []
    | _, _, _, _, _, _ => None
    end.
  Definition tconv_forward (m : tconv_mod) (x : tensor T) : option (tensor T) :=
    match tshape x with
    | n :: c :: ds =>
        if c =? tm_in m then
          match tout_sizes (tm_kernel m) (tm_stride m) (tm_dilation m) (tm_pad m) (tm_pad_out m) ds with
          | Some os =>
              let cg := tm_in m / tm_groups m in
              let og := tm_out m / tm_groups m in
              tab (n :: tm_out m :: os) (fun idx => match idx with
                | i :: j :: o => Some (burn_bias (tm_bias m) j (sum add zero (upto cg) (fun ch => sum add zero (indices ds) (fun p => sum add zero (indices (tm_kernel m)) (fun q =>
                    if eqs (strided (tm_stride m) (tm_dilation m) p q) (plus2 o (tm_pad m))
                    then mul (peek zero x (i :: cg * (j / og) + ch :: p)) (peek zero (tm_weight m) (cg * (j / og) + ch :: j mod og :: q)) else zero)))))
                | _ => None end)
          | None => None
          end
        else None
    | _ => None
    end.

  (** [burn::nn::pool::MaxPool1d], [MaxPool2d]: the largest of each window of the input with
      [lowest] around it. *)
  Record pool_mod := mkPoolM { pm_kernel : list N; pm_stride : list N; pm_dilation : list N; pm_pad : option (list N); pm_ceil : bool; pm_include_pad : bool }.
  Definition max_forward (larger : T -> T -> T) (lowest : T) (k : nat) (m : pool_mod) (x : tensor T) : option (tensor T) :=
    match tshape x with
    | n :: c :: ds =>
        let (b, e) := burn_padding k (pm_pad m) in
        match pad_spatial lowest b e x, out_sizes (pm_ceil m) (pm_kernel m) (pm_stride m) (pm_dilation m) b e ds with
        | Some xp, Some os =>
            tab (n :: c :: os) (fun idx => match idx with
              | i :: j :: o => Some (fold_right larger lowest (map (fun q => peek lowest xp (i :: j :: strided (pm_stride m) (pm_dilation m) o q)) (indices (pm_kernel m))))
              | _ => None end)
        | _, _ => None
        end
    | _ => None
    end.
  (** [AvgPool1d], [AvgPool2d], without a dilation: the sum of each window of the input with
      zeros around it, over the size of the kernel or the number of elements that are not
      padding.  [ceil_mode] is not modelled: [None]. *)
  Definition avg_forward (over : T -> N -> T) (k : nat) (m : pool_mod) (x : tensor T) : option (tensor T) :=
    if pm_ceil m then None else
    match tshape x with
    | n :: c :: ds =>
        let (b, e) := burn_padding k (pm_pad m) in
        let ones := repeat 1 k in
        match pad_spatial zero b e x, out_sizes false (pm_kernel m) (pm_stride m) ones b e ds with
        | Some xp, Some os =>
            tab (n :: c :: os) (fun idx => match idx with
              | i :: j :: o =>
                  let at_ q := strided (pm_stride m) ones o q in
                  Some (over (sum add zero (indices (pm_kernel m)) (fun q => peek zero xp (i :: j :: at_ q)))
                             (if pm_include_pad m then prodN (pm_kernel m)
                              else N.of_nat (length (filter (fun q => leq2 b (at_ q) && within ds (minus2 (at_ q) b)) (indices (pm_kernel m))))))
              | _ => None end)
        | _, _ => None
        end
    | _ => None
    end.
  (** [AdaptiveAvgPool1d], [AdaptiveAvgPool2d] to [out]: window [o] of an axis of size [d] goes
      from [o * d / out] to [(o + 1) * d / out], rounded up. *)
  Fixpoint adaptive (out os ds : list N) : list (N * N) :=
    match out, os, ds with
    | u :: out, o :: os, d :: ds => (o * d / u, ((o + 1) * d + u - 1) / u - o * d / u) :: adaptive out os ds
    | _, _, _ => []
    end.
  Definition adaptive_forward (over : T -> N -> T) (out : list N) (x : tensor T) : option (tensor T) :=
    match tshape x with
    | n :: c :: ds =>
        if Nat.eqb (length ds) (length out) then
          tab (n :: c :: out) (fun idx => match idx with
            | i :: j :: o =>
                let w := adaptive out o ds in
                Some (over (sum add zero (indices (map snd w)) (fun q => peek zero x (i :: j :: plus2 (map fst w) q))) (prodN (map snd w)))
            | _ => None end)
        else None
    | _ => None
    end.

  (** ** What is emitted *)
  (** conv1d.rs:14-56 and 74-95, conv2d.rs:13-80, conv3d.rs:14-55 and 73-94: the module that
      [field] creates, with the data of [collect_snapshots] loaded.  Burn refuses channels
      that the groups do not divide, and data whose shape is not that of the parameter. *)
  Definition load_bias (n : rnode) (m : N) : ires (option (tensor T)) :=
    match ninputs n with
    | [_; _; b] => match snapshot value b with
                   | Some B => if eqs (tshape B) [m] then IOk (Some B) else IErr
                   | None => IErr end
    | _ => IOk None
    end.
  Definition conv_module (k : nat) (n : rnode) : ires conv_mod :=
    ibind (iexpect (conv_config shapes k n)) (fun c =>
    match ninputs n with
    | _ :: w :: _ =>
        match static_shape_known (aty w) with
        | Some (s0 :: s1 :: _) =>
            ibind (input_spatial n) (fun sp =>
            ibind (resolve_auto_pad (cc_auto c) (cc_begin c) (cc_end c) sp (cc_kernel c) (cc_stride c) (cc_dilation c)) (fun p =>
            ibind (padding_tokens k p) (fun pad =>
            let cin := s1 * cc_group c in
            if (cc_group c =? 0) || negb (cin mod cc_group c =? 0) || negb (s0 mod cc_group c =? 0) then IErr
            else match snapshot value w with
                 | Some W => if eqs (tshape W) (s0 :: cin / cc_group c :: cc_kernel c)
                             then ibind (load_bias n s0) (fun B => IOk (mkConvM cin s0 (cc_kernel c) (cc_stride c) (cc_dilation c) pad (cc_group c) W B))
                             else IErr
                 | None => IErr
                 end)))
        | _ => IPanic
        end
    | _ => IPanic
    end).
  (** conv_transpose_1d.rs:14-47 and 63-92, conv_transpose_2d.rs:14-46 and 62-91,
      conv_transpose_3d.rs with the same lines. *)
  Definition tconv_module (k : nat) (n : rnode) : ires tconv_mod :=
    ibind (iexpect (tconv_config shapes k n)) (fun c =>
    match ninputs n with
    | _ :: w :: _ =>
        match static_shape_known (aty w) with
        | Some (s0 :: s1 :: _) =>
            let cout := s1 * tc_group c in
            if (tc_group c =? 0) || negb (s0 mod tc_group c =? 0) || negb (cout mod tc_group c =? 0) then IErr
            else match snapshot value w with
                 | Some W => if eqs (tshape W) (s0 :: cout / tc_group c :: tc_kernel c)
                             then ibind (load_bias n cout) (fun B => IOk (mkTconvM s0 cout (tc_kernel c) (tc_stride c) (tc_dilation c) (tc_pad c) (tc_out c) (tc_group c) W B))
                             else IErr
                 | None => IErr
                 end
        | _ => IPanic
        end
    | _ => IPanic
    end).
  (** max_pool1d.rs:12-45, max_pool2d.rs:12-45. *)
  Definition max_pool_module (k : nat) (n : rnode) : ires pool_mod :=
    ibind (iexpect (pool_config k false n)) (fun c =>
    ibind (input_spatial n) (fun sp =>
    ibind (resolve_auto_pad (pc_auto c) (pc_begin c) (pc_end c) sp (pc_kernel c) (pc_stride c) (pc_dilation c)) (fun p =>
    ibind (padding_tokens k p) (fun pad =>
    IOk (mkPoolM (pc_kernel c) (pc_stride c) (pc_dilation c) pad (pc_ceil c) false))))).
  (** avg_pool1d.rs:12-45, avg_pool2d.rs:12-45: the dilation is used for the padding only. *)
  Definition avg_pool_module (k : nat) (n : rnode) : ires pool_mod :=
    ibind (iexpect (pool_config k true n)) (fun c =>
    ibind (input_spatial n) (fun sp =>
    ibind (resolve_auto_pad (pc_auto c) (pc_begin c) (pc_end c) sp (pc_kernel c) (pc_stride c) (pc_dilation c)) (fun p =>
    ibind (padding_tokens k p) (fun pad =>
    IOk (mkPoolM (pc_kernel c) (pc_stride c) [] pad (pc_ceil c) (pc_include_pad c)))))).
  (** global_avg_pool.rs:12-41. *)
  Definition global_pool_module (n : rnode) : ires (list N) :=
    ibind (first_input n) (fun a =>
    match aty a with
    | TensorT t => if tt_rank t =? 3 then IOk [1] else if tt_rank t =? 4 then IOk [1; 1] else IPanic
    | _ => IPanic
    end).

  (** The [forward] of each: [let out = self.field.forward(x);]. *)
  Definition forward_with (e : string -> option (tensor T)) (n : rnode) (f : tensor T -> option (tensor T)) : option (string * tensor T) :=
    match ninputs n, noutputs n with
    | x :: _, y :: _ => match e (aname x) with Some v => option_map (pair (aname y)) (f v) | None => None end
    | _, _ => None
    end.
  Definition conv_run (k : nat) (n : rnode) (e : string -> option (tensor T)) : option (string * tensor T) :=
    match conv_module k n with IOk m => forward_with e n (conv_forward k m) | _ => None end.
  Definition tconv_run (k : nat) (n : rnode) (e : string -> option (tensor T)) : option (string * tensor T) :=
    match tconv_module k n with IOk m => forward_with e n (tconv_forward m) | _ => None end.
  Definition max_pool_run (larger : T -> T -> T) (lowest : T) (k : nat) (n : rnode) (e : string -> option (tensor T)) : option (string * tensor T) :=
    match max_pool_module k n with IOk m => forward_with e n (max_forward larger lowest k m) | _ => None end.
  Definition avg_pool_run (over : T -> N -> T) (k : nat) (n : rnode) (e : string -> option (tensor T)) : option (string * tensor T) :=
    match avg_pool_module k n with IOk m => forward_with e n (avg_forward over k m) | _ => None end.
  Definition global_pool_run (over : T -> N -> T) (n : rnode) (e : string -> option (tensor T)) : option (string * tensor T) :=
    match global_pool_module n with IOk out => forward_with e n (adaptive_forward over out) | _ => None end.
End Modules.
