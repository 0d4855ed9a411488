(** The code emitted for Attention: crates/burn-onnx/src/burn/node/attention.rs and
    crates/onnx-ir/src/node/attention.rs.  Elements are real numbers, with minus infinity
    among the scores; rounding is not modelled. *)
From Verif Require Export ShapeOps_Model.
From Verif Require Import TensorRun_Model BinOps_Model.
From Verif Require Export Attend_Spec.
Import Attend_Spec Tensor_Spec.
Local Open Scope N_scope.

(** ** Import *)
(** onnx-ir attention.rs:17-26, [AttentionConfig]; floats by the bits of the attribute. *)
Record aconf := mkAC { ac_causal : bool; ac_kv : option N; ac_q : option N; ac_mode : N; ac_scale : option N; ac_softcap : option N; ac_precision : bool }.
(** One attribute: [into_i64] and [into_f32] panic on another kind. *)
Definition opt_int (n : rnode) (key : string) : ires (option Z) :=
  match get_attr n key with None => IOk None | Some (AInt v) => IOk (Some v) | Some _ => IPanic end.
Definition opt_float (n : rnode) (key : string) : ires (option N) :=
  match get_attr n key with None => IOk None | Some (AFloat w) => IOk (Some w) | Some _ => IPanic end.
(** onnx-ir attention.rs:187-252, [extract_config].  The attributes are read key by key;
    there they are met in the order of the map, which matters only when two are wrong. *)
Definition att_config (n : rnode) : ires aconf :=
  match ninputs n with
  | [] => IErr
  | q :: _ =>
      match aty q with
      | TensorT _ =>
          if negb (forallb (fun kv => existsb (String.eqb (fst kv)) att_keys) (nattrs n)) then IErr else
          ibind (opt_int n "is_causal") (fun c =>
          ibind (opt_int n "kv_num_heads") (fun kv =>
          ibind (opt_int n "q_num_heads") (fun qh =>
          ibind (opt_int n "qk_matmul_output_mode") (fun md =>
          ibind (match md with None => IOk 0 | Some v => if (0 <=? v)%Z && (v <=? 3)%Z then IOk (Z.to_N v) else IErr end) (fun mode =>
          ibind (opt_float n "scale") (fun sc =>
          ibind (opt_float n "softcap") (fun cap =>
          ibind (opt_int n "softmax_precision") (fun pr =>
          IOk (mkAC (match c with Some v => negb (v =? 0)%Z | None => false end) (option_map to_usize kv) (option_map to_usize qh) mode sc cap
                    (match pr with Some _ => true | None => false end))))))))))
      | _ => IErr
      end
  end.
(** node.rs:36-38, [get_input]. *)
Definition given (n : rnode) (i : nat) : option arg :=
  match nth_error (ninputs n) i with Some a => if is_optional a then None else Some a | None => None end.
Definition some {A} (o : option A) : bool := match o with Some _ => true | None => false end.
(** argument.rs, [ArgType::elem_type]. *)
Definition elem_ty (t : argty) : dtype := match t with ScalarTensor d | ScalarNative d => d | ShapeT _ => I64 | TensorT t => tt_dtype t end.
(** onnx-ir attention.rs:66-185, [infer_types]: the types of the outputs, [None] for one left as it is. *)
Definition infer_attention (opset : N) (n : rnode) : ires (list (option argty)) :=
  if opset <? 23 then IErr else
  match ninputs n with
  | iq :: ik :: iv :: _ =>
      if (length (noutputs n) =? 0)%nat then IErr else
      match aty iq, aty ik, aty iv with
      | TensorT q, TensorT k, TensorT v =>
          if negb (tt_rank q =? tt_rank k) || negb (tt_rank q =? tt_rank v) then IErr else
          if negb (tt_rank q =? 3) && negb (tt_rank q =? 4) then IErr else
          let pk := some (given n 4) in let pv := some (given n 5) in
          let present := (3 <=? length (noutputs n))%nat in
          if negb (Bool.eqb pk pv) || negb (Bool.eqb pk present) || (length (noutputs n) =? 2)%nat then IErr else
          match att_config n with
          | IOk c =>
              if (tt_rank q =? 3) && (negb (some (ac_kv c)) || negb (some (ac_q c))) then IErr else
              IOk (firstn (length (noutputs n))
                    [Some (TensorT (mkTT (tt_dtype q) (tt_rank q) None));
                     option_map (fun a => TensorT (mkTT (elem_ty (aty a)) 4 None)) (given n 4);
                     option_map (fun a => TensorT (mkTT (elem_ty (aty a)) 4 None)) (given n 5);
                     Some (TensorT (mkTT (tt_dtype q) 4 None))])
          | _ => IPanic
          end
      | _, _, _ => IErr
      end
  | _ => IErr
  end.

(** ** Generation *)
Inductive mkind := KBoolMask | KFloatMask | KIntMask.
Definition kind_of (d : dtype) : mkind := if dtype_beq d BoolT then KBoolMask else if is_float_dtype d then KFloatMask else KIntMask.
(** What is written into the code: the heads when the tensors have three dimensions, whether
    keys are kept from before, the numbers, and the mask with its rank.  [p_qk]: the mode,
    when there is a fourth output ([forward_custom]). *)
Record plan := mkPlan { p_heads : option (N * N); p_past : bool; p_scale : option N; p_softcap : option N; p_causal : bool; p_mask : option (mkind * N); p_qk : option N }.
(** attention.rs:140-192 and 319-353: the mask.  [forward_burn_attention] looks at it only
    without [is_causal] and wants two to four dimensions; [forward_custom] looks at it
    always, and then overwrites what it emitted with [is_causal]. *)
Definition gen_mask (custom : bool) (c : aconf) (n : rnode) : option (option (mkind * N)) :=
  if negb custom && ac_causal c then Some None else
  match given n 3 with
  | None => Some None
  | Some a =>
      match aty a with
      | TensorT t => if custom || ((2 <=? tt_rank t) && (tt_rank t <=? 4)) then Some (if ac_causal c then None else Some (kind_of (tt_dtype t), tt_rank t)) else None
      | _ => None
      end
  end.
(** attention.rs:23-32, 43-214 and 218-440; [None] is a panic of the generator. *)
Definition gen_attention (c : aconf) (n : rnode) : option plan :=
  if ac_precision c then None else
  let custom := (4 <=? length (noutputs n))%nat in
  let past := some (nth_error (ninputs n) 4) && some (nth_error (ninputs n) 5) in
  let present := (3 <=? length (noutputs n))%nat in
  if custom && negb (Bool.eqb (some (nth_error (ninputs n) 4)) (some (nth_error (ninputs n) 5))) then None else
  if negb (Bool.eqb past present) then None else
  match option_map aty (nth_error (ninputs n) 0) with
  | Some (TensorT t) =>
      obind (if tt_rank t =? 3 then match ac_q c, ac_kv c with Some q, Some kv => Some (Some (q, kv)) | _, _ => None end else Some None) (fun heads =>
      obind (gen_mask custom c n) (fun mask =>
      Some (mkPlan heads past (ac_scale c) (match ac_softcap c with Some w => if zero_bits w then None else Some w | None => None end)
                   (ac_causal c) mask (if custom then Some (ac_mode c) else None))))
  | _ => None
  end.

(** ** Burn *)
Definition permute0213 {A} (x : tensor A) : option (tensor A) :=
  match tshape x with
  | [a; b; c; d] => tab [a; c; b; d] (fun idx => match idx with [i; j; k; l] => get x [i; k; j; l] | _ => None end)
  | _ => None
  end.
Definition transpose4 {A} (x : tensor A) : option (tensor A) :=
  match tshape x with
  | [a; b; c; d] => tab [a; b; d; c] (fun idx => match idx with [i; j; k; l] => get x [i; j; l; k] | _ => None end)
  | _ => None
  end.
(** [matmul]: the leading dimensions are equal or one of them is 1. *)
Definition along (d i : N) : N := if d =? 1 then 0 else i.
Definition matmul4 (x y : rt) : option rt :=
  match tshape x, tshape y with
  | [b; h; m; k], [b'; h'; k'; n] =>
      if k =? k' then
        obind (bdim b b') (fun bb => obind (bdim h h') (fun hh =>
        tab [bb; hh; m; n] (fun idx => match idx with
          | [i; j; r; c] => Some (total k (fun t => rd x [along b i; along h j; r; t] * rd y [along b' i; along h' j; t; c])%R)
          | _ => None end)))
      else None
  | _, _ => None
  end.
(** [cat] along dimension 2. *)
Definition cat2 (x y : rt) : option rt :=
  match tshape x, tshape y with
  | [b; h; p; d], [b'; h'; n; d'] =>
      if (b =? b') && (h =? h') && (d =? d') then
        tab [b; h; p + n; d] (fun idx => match idx with [i; j; c; u] => if c <? p then get x [i; j; c; u] else get y [i; j; c - p; u] | _ => None end)
      else None
  | _, _ => None
  end.
(** An operation on each element, and on the elements of two tensors of one shape. *)
Definition each {A B} (f : A -> B) (x : tensor A) : tensor B := mkT (tshape x) (map f (tdata x)).
Definition both {A B C} (f : A -> B -> C) (x : tensor A) (y : tensor B) : option (tensor C) :=
  if list_eq_dec N.eq_dec (tshape x) (tshape y) then tab (tshape x) (fun idx => match get x idx, get y idx with Some a, Some b => Some (f a b) | _, _ => None end) else None.
(** [softmax(_, 3)]. *)
Definition ed (x : tensor ext) (idx : list N) : ext := match get x idx with Some v => v | None => None end.
Definition softmax3 (x : tensor ext) : option rt :=
  match tshape x with
  | [b; h; m; n] => tab [b; h; m; n] (fun idx => match idx with
      | [i; j; r; c] => Some (expo (ed x [i; j; r; c]) / total n (fun k => expo (ed x [i; j; r; k])))%R
      | _ => None end)
  | _ => None
  end.
Definition reshape_rest (b m : N) (x : rt) : option rt :=
  if b * m =? 0 then None else b_reshape [b; m; prodN (tshape x) / (b * m)] x.
Definition f32_of (w : N) : R := f32_real w.
Definition default_scale (d : N) : R := (/ sqrt (IZR (Z.of_N d)))%R.
(** [burn::tensor::module::attention]: given here for queries and keys with equally many
    heads, for masks that broadcast, with [is_causal] only for as many queries as keys, and
    with [softcap] only when nothing is masked; for the rest [None], as nothing is claimed.
    [mask] is true where a key is hidden. *)
Definition masked_by (mask : option (tensor bool)) (bs : option (tensor ext)) (idx : list N) : option ext :=
  match mask, bs with
  | Some t, _ => option_map (fun h : bool => if h then None else Some 0%R) (get t (bproj (tshape t) idx))
  | None, Some t => get t (bproj (tshape t) idx)
  | None, None => Some (Some 0%R)
  end.
Definition spread (s t : list N) : bool := match bshape s t with Some u => if list_eq_dec N.eq_dec u s then true else false | None => false end.
Definition burn_attention (q k v : rt) (mask : option (tensor bool)) (bs : option (tensor ext)) (sc cap : option R) (causal : bool) : option rt :=
  match tshape q, tshape k, tshape v with
  | [b; h; m; d], [b1; h1; n; d1], [b2; h2; n2; e] =>
      if (b =? b1) && (b =? b2) && (h =? h1) && (h =? h2) && (n =? n2) && (d =? d1) &&
         (match mask with Some t => spread [b; h; m; n] (tshape t) | None => true end) &&
         (match bs with Some t => spread [b; h; m; n] (tshape t) | None => true end) &&
         (negb causal || (m =? n)) && (negb (some cap) || (negb (some mask) && negb (some bs) && negb causal))
      then
        let s := match sc with Some s => s | None => default_scale d end in
        let sco := fun i j r c =>
          let p := (total d (fun u => rd q [i; j; r; u] * rd k [i; j; c; u]) * s)%R in
          match cap with
          | Some w => Some (w * tanh (p / w))%R
          | None => eplus (Some p) (eplus (match masked_by mask bs [i; j; r; c] with Some v => v | None => None end) (if causal && (r <? c) then None else Some 0%R))
          end in
        tab [b; h; m; e] (fun idx => match idx with
          | [i; j; r; t] => Some (total n (fun c => (expo (sco i j r c) / total n (fun c' => expo (sco i j r c'))) * rd v [i; j; c; t]))%R
          | _ => None end)
      else None
  | _, _, _ => None
  end.

(** ** Running the code *)
(** attention.rs:82-98 and 254-277: [reshape] and [permute] of tensors of three dimensions. *)
Definition split_heads (h size : N) (x : rt) : option rt :=
  match tshape x with [b; l; _] => obind (b_reshape [b; l; h; size] x) permute0213 | _ => None end.
Definition open_heads (p : plan) (q k v : rt) : option (rt * rt * rt) :=
  match p_heads p with
  | None => Some (q, k, v)
  | Some (hq, hk) =>
      match tshape q, tshape v with
      | [_; _; w], [_; _; w'] =>
          if (hq =? 0) || (hk =? 0) then None else
          obind (split_heads hq (w / hq) q) (fun q' => obind (split_heads hk (w / hq) k) (fun k' => obind (split_heads hk (w' / hk) v) (fun v' => Some (q', k', v'))))
      | _, _ => None
      end
  end.
(** attention.rs:100-102 and 285-287. *)
Definition close_heads (p : plan) (q y : rt) : option rt :=
  match p_heads p with
  | None => Some y
  | Some _ => match tshape q with [b; m; _] => obind (permute0213 y) (reshape_rest b m) | _ => None end
  end.
(** attention.rs:106-118 and 295-306. *)
Definition with_past (p : plan) (past : option (rt * rt)) (k v : rt) : option (rt * rt) :=
  if p_past p then match past with Some (pk, pv) => obind (cat2 pk k) (fun k' => obind (cat2 pv v) (fun v' => Some (k', v'))) | None => None end
  else Some (k, v).
(** attention.rs:150-188: [unsqueeze::<4>()], [unsqueeze_dim::<4>(1)] or nothing. *)
Definition to_rank4 {A} (rank : N) (x : tensor A) : option (tensor A) :=
  match tshape x with
  | [m; n] => if rank =? 2 then Some (mkT [1; 1; m; n] (tdata x)) else None
  | [w; m; n] => if rank =? 3 then Some (mkT [w; 1; m; n] (tdata x)) else None
  | [_; _; _; _] => if rank =? 4 then Some x else None
  | _ => None
  end.
(** The two arguments of [attention] for the mask. *)
Definition mask_args (p : plan) (m : option mask_in) : option (option (tensor bool) * option (tensor ext)) :=
  match p_mask p with
  | None => Some (None, None)
  | Some (KBoolMask, r) => match m with Some (MBool t) => option_map (fun u => (Some u, None)) (to_rank4 r (each negb t)) | _ => None end
  | Some (KFloatMask, r) => match m with Some (MFloat t) => option_map (fun u => (None, Some u)) (to_rank4 r t) | _ => None end
  | Some (KIntMask, r) => match m with Some (MInt t) => option_map (fun u => (None, Some u)) (to_rank4 r (each (fun v => Some (IZR v)) t)) | _ => None end
  end.
(** attention.rs:319-369: what [forward_custom] adds to the scores [qk]; a mask of booleans
    that has not two dimensions does not compile. *)
Definition tril_bias (m n : N) : tensor ext := mkT [m; n] (map (fun idx => match idx with [r; c] => if c <=? r then Some 0%R else None | _ => None end) (indices [m; n])).
Definition expand4 {A} (s : list N) (x : tensor A) : option (tensor A) := b_expand (map Z.of_N s) x.
Definition add_mask (p : plan) (m : option mask_in) (qk : tensor ext) : option (tensor ext) :=
  match tshape qk with
  | [b; h; r; c] =>
      if p_causal p then obind (expand4 [b; h; r; c] (tril_bias r c)) (both eplus qk) else
      match p_mask p with
      | None => Some qk
      | Some (KBoolMask, k) =>
          match m with
          | Some (MBool t) =>
              if negb (k =? 2) then None else
              obind (both (fun (z : R) (v : bool) => if v then Some z else None) (mkT [r; c] (map (fun _ => 0%R) (indices [r; c]))) t) (fun u => obind (expand4 [b; h; r; c] u) (both eplus qk))
          | _ => None
          end
      | Some (KFloatMask, _) => match m with Some (MFloat t) => obind (expand4 [b; h; r; c] t) (both eplus qk) | _ => None end
      | Some (KIntMask, _) => match m with Some (MInt t) => obind (expand4 [b; h; r; c] (each (fun v => Some (IZR v)) t)) (both eplus qk) | _ => None end
      end
  | _ => None
  end.
(** attention.rs:400-416. *)
Definition cap_scores (p : plan) (x : tensor ext) : tensor ext :=
  match p_softcap p with
  | None => x
  | Some w => each (fun v : ext => Some (match v with Some v => f32_of w * tanh (v * / f32_of w) | None => - f32_of w end))%R x
  end.
Record att_out := mkOut { y_out : rt; y_present : option (rt * rt); y_qk : option (tensor ext) }.
Definition run_attention (p : plan) (x : att_in) : option att_out :=
  obind (open_heads p (x_q x) (x_k x) (x_v x)) (fun qkv =>
  let '(q, k0, v0) := qkv in
  obind (with_past p (x_past x) k0 v0) (fun kv =>
  let (k, v) := kv in
  match p_qk p with
  | None =>
      obind (mask_args p (x_mask x)) (fun mb =>
      obind (burn_attention q k v (fst mb) (snd mb) (option_map f32_of (p_scale p)) (option_map f32_of (p_softcap p)) (p_causal p)) (fun y =>
      obind (close_heads p (x_q x) y) (fun y' => Some (mkOut y' (if p_past p then Some (k, v) else None) None))))
  | Some mode =>
      obind (match tshape q with [_; _; _; d] => Some (sqrt (match p_scale p with Some w => f32_of w | None => default_scale d end)) | _ => None end) (fun s =>
      obind (transpose4 (each (fun a => a * s)%R k)) (fun kt =>
      obind (matmul4 (each (fun a => a * s)%R q) kt) (fun qk0 =>
      let qk := each (fun a => Some a) qk0 in
      obind (add_mask p (x_mask x) qk) (fun qkm =>
      let cap := cap_scores p qkm in
      obind (softmax3 cap) (fun sc =>
      obind (matmul4 sc v) (fun y =>
      obind (close_heads p (x_q x) y) (fun y' =>
      obind (if mode =? 0 then Some qk else if mode =? 1 then Some qkm
             else if mode =? 2 then (if some (p_softcap p) then Some cap else None) else Some (each (fun a => Some a) sc)) (fun out =>
      Some (mkOut y' (if p_past p then Some (k, v) else None) (Some out))))))))))
  end)).
