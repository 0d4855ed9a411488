(** What ONNX prescribes for Attention (opset 23), over the reals with a minus
    infinity.  Nothing here mentions the generated code. *)
From Coq Require Export Reals.
From Verif Require Export Attention_Spec.
Import Tensor_Spec.
Local Open Scope N_scope.

(** A real number, or minus infinity. *)
Notation ext := (option R).
Definition eplus (a b : ext) : ext := match a, b with Some x, Some y => Some (x + y)%R | _, _ => None end.
Definition expo (a : ext) : R := match a with Some x => exp x | None => 0%R end.

(** ** Inputs *)
(** A mask tells which keys are attended to, or is added to the scores. *)
Inductive mask_in := MBool (m : tensor bool) | MFloat (m : tensor ext) | MInt (m : tensor Z).
Definition mask_shape (m : mask_in) : list N := match m with MBool t => tshape t | MFloat t => tshape t | MInt t => tshape t end.
Record att_in := mkIn { x_q : rt; x_k : rt; x_v : rt; x_mask : option mask_in; x_past : option (rt * rt) }.
(** The options; no [softcap] when the attribute is absent or zero. *)
Record att_opt := mkOpt { o_causal : bool; o_scale : option R; o_softcap : option R; o_mode : N }.
(** Images, heads of the queries, heads of the keys, queries, keys given, keys kept from
    before, and the sizes of a key and of a value. *)
Record sizes := mkSz { z_b : N; z_hq : N; z_hk : N; z_m : N; z_n : N; z_p : N; z_d : N; z_e : N }.
Definition z_total (z : sizes) : N := z_p z + z_n z.

(** The element of head [j]: tensors of three dimensions hold the heads of one position
    one after the other. *)
Definition elem (size : N) (x : rt) (i j r u : N) : R :=
  match tshape x with [_; _; _; _] => rd x [i; j; r; u] | _ => rd x [i; r; j * size + u] end.

Section Attention.
  Context (z : sizes) (o : att_opt) (x : att_in).
  Definition queries (i j r u : N) : R := elem (z_d z) (x_q x) i j r u.
  Definition keys (i j c u : N) : R :=
    match x_past x with Some (pk, _) => if c <? z_p z then rd pk [i; j; c; u] else elem (z_d z) (x_k x) i j (c - z_p z) u | None => elem (z_d z) (x_k x) i j c u end.
  Definition values (i j c u : N) : R :=
    match x_past x with Some (_, pv) => if c <? z_p z then rd pv [i; j; c; u] else elem (z_e z) (x_v x) i j (c - z_p z) u | None => elem (z_e z) (x_v x) i j c u end.
  (** The head of the keys that serves head [j] of the queries. *)
  Definition served (j : N) : N := j / (z_hq z / z_hk z).
  Definition scale : R := match o_scale o with Some s => s | None => (/ sqrt (IZR (Z.of_N (z_d z))))%R end.
  Definition product (i j r c : N) : R := (total (z_d z) (fun u => queries i j r u * keys i (served j) c u) * scale)%R.
  (** Masks are broadcast from the right. *)
  Definition mask_at (m : mask_in) (idx : list N) : ext :=
    match m with
    | MBool t => match get t (bproj (tshape t) idx) with Some true => Some 0%R | _ => None end
    | MFloat t => match get t (bproj (tshape t) idx) with Some v => v | None => None end
    | MInt t => match get t (bproj (tshape t) idx) with Some v => Some (IZR v) | None => None end
    end.
  Definition bias (i j r c : N) : ext :=
    eplus (match x_mask x with Some m => mask_at m [i; j; r; c] | None => Some 0%R end)
         (if o_causal o && (r <? c) then None else Some 0%R).
  Definition score (i j r c : N) : ext := eplus (Some (product i j r c)) (bias i j r c).
  (** [softcap * tanh(x / softcap)]. *)
  Definition capped (i j r c : N) : ext :=
    match o_softcap o with
    | None => score i j r c
    | Some s => Some (match score i j r c with Some v => s * tanh (v / s) | None => - s end)%R
    end.
  Definition weight (i j r c : N) : R := (expo (capped i j r c) / total (z_total z) (fun c' => expo (capped i j r c')))%R.
  Definition result (i j r t : N) : R := total (z_total z) (fun c => weight i j r c * values i (served j) c t)%R.

  (** ** Outputs *)
  Definition onnx_y : rt :=
    match tshape (x_q x) with
    | [_; _; _; _] => mk4 (z_b z) (z_hq z) (z_m z) (z_e z) result
    | _ => mk [z_b z; z_m z; z_hq z * z_e z] (fun idx => match idx with [i; r; w] => result i (w / z_e z) r (w mod z_e z) | _ => 0%R end)
    end.
  Definition onnx_present : option (rt * rt) :=
    option_map (fun _ => (mk4 (z_b z) (z_hk z) (z_total z) (z_d z) keys, mk4 (z_b z) (z_hk z) (z_total z) (z_e z) values)) (x_past x).
  Definition stage : N -> N -> N -> N -> ext :=
    if o_mode o =? 0 then fun i j r c => Some (product i j r c) else if o_mode o =? 1 then score
    else if o_mode o =? 2 then capped else fun i j r c => Some (weight i j r c).
  Definition onnx_qk : tensor ext :=
    let s := [z_b z; z_hq z; z_m z; z_total z] in
    mkT s (map (fun idx => match idx with [i; j; r; c] => stage i j r c | _ => None end) (indices s)).
End Attention.

(** ** Valid inputs *)
(** Three dimensions or four, the same for the three tensors. *)
Definition laid_out (four : bool) (x : rt) (b h l size : N) : Prop := twf x /\ tshape x = (if four then [b; h; l; size] else [b; l; h * size]).
(** A mask that broadcasts to the scores. *)
Definition mask_fits (s : list N) (b h m n : N) : Prop :=
  (length s <= 4)%nat /\ Forall2 (fun d t => d = t \/ d = 1) s (skipn (4 - length s) [b; h; m; n]).
Definition mask_wf (m : mask_in) : Prop := match m with MBool t => twf t | MFloat t => twf t | MInt t => twf t end.
Definition inputs_ok (four : bool) (z : sizes) (x : att_in) : Prop :=
  laid_out four (x_q x) (z_b z) (z_hq z) (z_m z) (z_d z) /\ laid_out four (x_k x) (z_b z) (z_hk z) (z_n z) (z_d z) /\
  laid_out four (x_v x) (z_b z) (z_hk z) (z_n z) (z_e z) /\
  0 < z_hk z /\ z_hq z mod z_hk z = 0 /\ 0 < z_hq z /\ 0 < z_d z /\ 0 < z_e z /\ 0 < z_b z /\ 0 < z_m z /\
  match x_past x with
  | Some (pk, pv) => laid_out true pk (z_b z) (z_hk z) (z_p z) (z_d z) /\ laid_out true pv (z_b z) (z_hk z) (z_p z) (z_e z)
  | None => z_p z = 0
  end /\
  match x_mask x with Some m => mask_wf m /\ mask_fits (mask_shape m) (z_b z) (z_hq z) (z_m z) (z_total z) | None => True end.
(** No query is cut off from all the keys. *)
Definition attends (z : sizes) (o : att_opt) (x : att_in) : Prop :=
  forall i j r, i < z_b z -> j < z_hq z -> r < z_m z -> exists c, c < z_total z /\ bias o x i j r c <> None.

(** ** Nodes *)
Definition float_of (n : rnode) (key : string) : option (option N) :=
  match get_attr n key with None => Some None | Some (AFloat w) => Some (Some w) | Some _ => None end.
Definition int_of (n : rnode) (key : string) : option (option Z) :=
  match get_attr n key with None => Some None | Some (AInt v) => Some (Some v) | Some _ => None end.
Definition att_keys : list string := ["is_causal"; "kv_num_heads"; "q_num_heads"; "qk_matmul_output_mode"; "scale"; "softcap"; "softmax_precision"]%string.
Definition zero_bits (w : N) : bool := (w =? 0) || (w =? 2147483648).
(** The options of a node; the numbers of heads are needed with three dimensions. *)
Definition options_of (n : rnode) (four : bool) (z : sizes) (o : att_opt) : Prop :=
  Forall (fun kv => In (fst kv) att_keys) (nattrs n) /\
  (exists c, int_of n "is_causal" = Some c /\ o_causal o = match c with Some v => negb (v =? 0)%Z | None => false end) /\
  (exists c, float_of n "scale" = Some c /\ o_scale o = option_map f32_real c) /\
  (exists c, float_of n "softcap" = Some c /\ o_softcap o = match c with Some w => if zero_bits w then None else Some (f32_real w) | None => None end) /\
  (exists c, int_of n "qk_matmul_output_mode" = Some c /\ Z.of_N (o_mode o) = match c with Some v => v | None => 0%Z end /\ o_mode o <= 3) /\
  (exists c, int_of n "kv_num_heads" = Some c /\ (four = false -> c = Some (Z.of_N (z_hk z)) /\ z_hk z < 2 ^ 63)) /\
  (exists c, int_of n "q_num_heads" = Some c /\ (four = false -> c = Some (Z.of_N (z_hq z)) /\ z_hq z < 2 ^ 63)) /\
  get_attr n "softmax_precision" = None.
Definition mask_typed (m : mask_in) (t : tensor_type) : Prop :=
  tt_rank t = N.of_nat (length (mask_shape m)) /\
  match m with
  | MBool _ => tt_dtype t = BoolT
  | MFloat _ => In (tt_dtype t) [F64; F32; F16; BF16]
  | MInt _ => ~ In (tt_dtype t) [F64; F32; F16; BF16; BoolT]
  end.
(** The arguments of a node: the mask may be left out by an empty name or by ending the list. *)
Definition args_of (n : rnode) (four : bool) (x : att_in) : Prop :=
  exists aq ak av am past tq tk tv,
    ninputs n = aq :: ak :: av :: am ++ past /\
    aty aq = TensorT tq /\ aty ak = TensorT tk /\ aty av = TensorT tv /\
    (forall t, In t [tq; tk; tv] -> tt_rank t = if four then 4 else 3) /\
    match x_mask x with
    | None => am = [] \/ exists a, am = [a] /\ asrc a = VOptional
    | Some m => exists a t, am = [a] /\ asrc a <> VOptional /\ aty a = TensorT t /\ mask_typed m t
    end /\
    match x_past x with
    | None => past = [] /\ length (noutputs n) = 1%nat
    | Some _ => am <> [] /\ exists a b ta tb, past = [a; b] /\ asrc a <> VOptional /\ asrc b <> VOptional /\ aty a = TensorT ta /\ aty b = TensorT tb /\ tt_rank ta = 4 /\ tt_rank tb = 4 /\ (length (noutputs n) = 3 \/ length (noutputs n) = 4)%nat
    end.
(** The types of the outputs: those of the query, the kept keys, the kept values and the query. *)
Definition typed_like (n : rnode) (i : nat) (rank : N) (w : option argty) : Prop :=
  exists a t, nth_error (ninputs n) i = Some a /\ aty a = TensorT t /\ w = Some (TensorT (mkTT (tt_dtype t) rank None)).
Definition out_types (n : rnode) (four : bool) (tys : list (option argty)) : Prop :=
  length tys = length (noutputs n) /\
  Forall2 (fun ir w => typed_like n (fst ir) (snd ir) w) (firstn (length tys) [(0%nat, if four then 4 else 3); (4%nat, 4); (5%nat, 4); (0%nat, 4)]) tys.
