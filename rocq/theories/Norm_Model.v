(** The code emitted for normalisation layers:
    crates/burn-onnx/src/burn/node/{batch_norm,layer_norm,group_norm,instance_norm}.rs, with
    the attributes and types read in crates/onnx-ir/src/node/{batch_norm,layer_norm,
    group_norm,instance_norm}.rs. *)
From Verif Require Export Conv_Model Norm_Spec.
From Verif Require Import MatMul_Model TensorRun_Model Linear_Model.
Import Conv_Spec Norm_Spec Tensor_Spec.
Local Open Scope N_scope.

(** [into_f32] on an attribute panics on anything else. *)
Definition float_or (n : rnode) (key : string) (default : N) : ires N :=
  match get_attr n key with None => IOk default | Some (AFloat b) => IOk b | Some _ => IPanic end.

Section Run.
  Context {T : Type} (add sub mul div : T -> T -> T) (sqrt : T -> T) (zero : T) (over : T -> N -> T).
  (** The number that the bits of an f32 stand for (widened to f64 and printed as a literal). *)
  Variable num : N -> T.
  Variable value : arg -> option (tensor T).

  (** ** Tensor methods of Burn (not part of this repository) *)
  (** Operations on two tensors of one rank, dimensions of size one repeated. *)
  Definition bzip (op : T -> T -> T) (x y : tensor T) : option (tensor T) :=
    if (length (tshape x) =? length (tshape y))%nat then elementwise op x y else None.
  Definition bmap (f : T -> T) (x : tensor T) : tensor T := mkT (tshape x) (map f (tdata x)).
  (** [sum_dim] of the last dimension. *)
  Definition sum_last (x : tensor T) : option (tensor T) :=
    match rev (tshape x) with
    | h :: s => tab (rev s ++ [1]) (fun idx => Some (sum add zero (upto h) (fun i => elem zero x (removelast idx ++ [i]))))
    | [] => None
    end.
  Definition last_size (x : tensor T) : N := last (tshape x) 1.
  (** Mean and variance along the last dimension, and the input with them taken out. *)
  Definition centred (eps : T) (x : tensor T) : option (tensor T) :=
    obind (sum_last x) (fun s =>
    obind (bzip sub x (bmap (fun v => over v (last_size x)) s)) (fun d =>
    obind (bzip mul d d) (fun q =>
    obind (sum_last q) (fun s2 =>
    bzip div d (bmap (fun v => sqrt (add (over v (last_size x)) eps)) s2))))).
  (** A vector of [c] elements as [[1, c, 1, ..]] of rank [r]. *)
  Definition channel_shape (r : nat) (c : N) : list N := 1 :: c :: repeat 1 (r - 2).

  (** [burn::nn::BatchNorm] outside of training, with its parameters loaded. *)
  Record bn_mod := mkBn { bn_eps : N; bn_gamma : tensor T; bn_beta : tensor T; bn_mean : tensor T; bn_var : tensor T }.
  Definition bn_forward (m : bn_mod) (x : tensor T) : option (tensor T) :=
    match tshape x with
    | _ :: c :: _ =>
        let s := channel_shape (length (tshape x)) c in
        obind (b_reshape s (bn_mean m)) (fun mean =>
        obind (b_reshape s (bn_var m)) (fun var =>
        obind (b_reshape s (bn_gamma m)) (fun gamma =>
        obind (b_reshape s (bn_beta m)) (fun beta =>
        obind (bzip sub x mean) (fun d =>
        obind (bzip div d (bmap (fun v => sqrt (add v (num (bn_eps m)))) var)) (fun y =>
        obind (bzip mul y gamma) (fun y => bzip add y beta)))))))
    | _ => None
    end.
  (** [burn::nn::LayerNorm]: the last dimension; [gamma] and [beta] with leading dimensions
      of size one. *)
  Record ln_mod := mkLn { ln_eps : N; ln_gamma : tensor T; ln_beta : option (tensor T) }.
  Definition lead_ones (r : nat) (t : tensor T) : option (tensor T) :=
    if (length (tshape t) <=? r)%nat then Some (mkT (repeat 1 (r - length (tshape t)) ++ tshape t) (tdata t)) else None.
  Definition ln_forward (m : ln_mod) (x : tensor T) : option (tensor T) :=
    let r := length (tshape x) in
    obind (centred (num (ln_eps m)) x) (fun y =>
    obind (lead_ones r (ln_gamma m)) (fun g =>
    obind (bzip mul y g) (fun y =>
    match ln_beta m with Some b => obind (lead_ones r b) (bzip add y) | None => Some y end))).
  (** [burn::nn::GroupNorm]; [InstanceNorm] is the same with a group for each channel. *)
  Record gn_mod := mkGn { gn_groups : N; gn_channels : N; gn_eps : N; gn_gamma : tensor T; gn_beta : tensor T }.
  Definition gn_forward (m : gn_mod) (x : tensor T) : option (tensor T) :=
    match tshape x with
    | n :: c :: ds =>
        if negb (c =? gn_channels m) || (gn_groups m =? 0) then None
        else
        let hidden := prodN ds * c / gn_groups m in
        let s := channel_shape (length (tshape x)) c in
        obind (b_reshape [n; gn_groups m; hidden] x) (fun x3 =>
        obind (centred (num (gn_eps m)) x3) (fun y3 =>
        obind (b_reshape (tshape x) y3) (fun y =>
        obind (b_reshape s (gn_gamma m)) (fun gamma =>
        obind (b_reshape s (gn_beta m)) (fun beta =>
        obind (bzip mul y gamma) (fun y => bzip add y beta))))))
    | _ => None
    end.

  (** ** What is emitted *)
  (** The data of one parameter; another shape than that of the module's is refused. *)
  Definition param (n : rnode) (k : nat) (s : list N) : ires (tensor T) :=
    match nth_error (ninputs n) k with
    | None => IErr
    | Some a => match snapshot value a with Some t => if eqs (tshape t) s then IOk t else IErr | None => IErr end
    end.
  (** batch_norm.rs:19-22, layer_norm.rs:16-20 and the others: [scale_shape[0]]. *)
  Definition features (n : rnode) : ires N :=
    match nth_error (ninputs n) 1 with
    | None => IPanic
    | Some a => match static_shape_known (aty a) with Some (c :: _) => IOk c | _ => IPanic end
    end.
  Definition input_name (n : rnode) (k : nat) : option string := option_map aname (nth_error (ninputs n) k).

  (** onnx-ir batch_norm.rs:155-183 [extract_config]: an [epsilon] that is left out is 0.
      [None]: the parameters are not all constants. *)
  Definition bn_config (n : rnode) : ires (N * bool) :=
    ibind (float_or n "momentum" 0) (fun _ =>
    ibind (float_or n "epsilon" 0) (fun eps =>
    if Nat.ltb (length (ninputs n)) 5 then IPanic
    else IOk (eps, forallb (fun k => match nth_error (ninputs n) k with Some a => match value a with Some _ => true | None => false end | None => false end) [1; 2; 3; 4]%nat))).
  (** batch_norm.rs:14-41 [field], 106-153 [collect_snapshots]. *)
  Definition bn_module (n : rnode) (eps : N) : ires bn_mod :=
    ibind (features n) (fun c =>
    ibind (param n 1 [c]) (fun g => ibind (param n 2 [c]) (fun b => ibind (param n 3 [c]) (fun m => ibind (param n 4 [c]) (fun v => IOk (mkBn eps g b m v)))))).
  (** batch_norm.rs:54-90: the parameters are tensors of the graph. *)
  Definition bn_dims (rank : N) : list Z := 0%Z :: map Z.of_nat (seq 2 (N.to_nat rank - 2)).
  Definition bn_inline (n : rnode) (eps : N) (e : string -> option (tensor T)) (x : tensor T) : option (tensor T) :=
    match ninputs n with
    | x0 :: xs :: xb :: xm :: xv :: _ =>
        match aty x0 with
        | TensorT t =>
            let up a := obind (e (aname a)) (b_unsqueeze_at (tt_rank t) (bn_dims (tt_rank t))) in
            obind (up xs) (fun scale => obind (up xb) (fun bias => obind (up xm) (fun mean => obind (up xv) (fun var =>
            obind (bzip sub x mean) (fun d =>
            obind (bzip div d (bmap (fun v => sqrt (add v (num eps))) var)) (fun y =>
            obind (bzip mul y scale) (fun y => bzip add y bias)))))))
        | _ => None
        end
    | _ => None
    end.
  (** batch_norm.rs:43-92 [forward]. *)
  Definition batch_norm_run (n : rnode) (e : string -> option (tensor T)) : option (string * tensor T) :=
    match bn_config n with
    | IOk (eps, true) => match bn_module n eps with IOk m => forward_with e n (bn_forward m) | _ => None end
    | IOk (eps, false) => forward_with e n (bn_inline n eps e)
    | _ => None
    end.
  (** onnx-ir batch_norm.rs:96-153 [infer_types]. *)
  Definition infer_batch_norm (n : rnode) : ires argty :=
    match ninputs n with
    | x :: rest =>
        match aty x with
        | TensorT t =>
            let shape := match tt_shape t with Some s => s | None => repeat None (N.to_nat (tt_rank t)) end in
            match shape with
            | d0 :: None :: ds =>
                match rest with
                | [] => IPanic
                | s :: _ =>
                    let from_type := match aty s with TensorT ts => match tt_shape ts with Some (Some c :: _) => Some c | _ => None end | _ => None end in
                    let c := match value s with Some v => match tshape v with c :: _ => Some c | [] => from_type end | None => from_type end in
                    IOk (TensorT (mkTT (tt_dtype t) (tt_rank t) (Some (d0 :: c :: ds))))
                end
            | _ => IOk (TensorT (mkTT (tt_dtype t) (tt_rank t) (Some shape)))
            end
        | _ => IErr
        end
    | [] => IPanic
    end.

  Definition stash_or (n : rnode) : ires Z := attr_i64_or n "stash_type" 1.
  (** onnx-ir layer_norm.rs:88-137 [infer_types]: the output has the type of the input. *)
  Definition infer_layer_norm (n : rnode) : ires argty :=
    match nth_error (ninputs n) 1 with
    | None => IPanic
    | Some a =>
        match value a with
        | None => IErr
        | Some w =>
            if negb (forallb (fun kv => mem_str (fst kv) ["axis"; "epsilon"; "stash_type"]%string) (nattrs n)) then IErr
            else ibind (attr_i64_or n "axis" (-1)) (fun axis =>
              if negb (axis =? -1)%Z && negb (axis =? Z.of_nat (length (tshape w)) - 1)%Z then IErr
              else ibind (first_input n) (fun x => IOk (aty x)))
        end
    end.
  (** layer_norm.rs:14-36 [field], 38-64 [collect_snapshots], 66-83 [forward]; onnx-ir layer_norm.rs:139-155
      [extract_config].  The casts to F32 and back (full precision) do not change numbers
      without rounding. *)
  Definition ln_module (n : rnode) : ires ln_mod :=
    ibind (float_or n "epsilon" epsilon_bits) (fun eps => ibind (stash_or n) (fun _ =>
    ibind (features n) (fun c =>
    ibind (param n 1 [c]) (fun g =>
    if Nat.ltb 2 (length (ninputs n)) then ibind (param n 2 [c]) (fun b => IOk (mkLn eps g (Some b))) else IOk (mkLn eps g None))))).
  Definition layer_norm_run (n : rnode) (e : string -> option (tensor T)) : option (string * tensor T) :=
    match ln_module n with IOk m => forward_with e n (ln_forward m) | _ => None end.

  (** onnx-ir group_norm.rs:112-135 [extract_config], 66-110 [infer_types]. *)
  Definition gn_config (n : rnode) : ires (N * N) :=
    ibind (float_or n "epsilon" epsilon_bits) (fun eps => ibind (stash_or n) (fun _ =>
    match get_attr n "num_groups" with
    | None => IErr
    | Some a => ibind (attr_i64 a) (fun g => IOk (to_usize g, eps))
    end)).
  Definition infer_group_norm (n : rnode) : ires argty :=
    if negb (forallb (fun kv => mem_str (fst kv) ["epsilon"; "num_groups"; "stash_type"]%string) (nattrs n)) then IErr
    else ibind (iexpect (gn_config n)) (fun c =>
      match nth_error (ninputs n) 1 with
      | None => IPanic
      | Some a =>
          ibind (match value a with Some v => match tshape v with f :: _ => IOk f | [] => IPanic end | None => IOk 0 end) (fun f =>
          if (0 <? fst c) && (0 <? f) && negb (f mod fst c =? 0) then IErr else ibind (first_input n) (fun x => IOk (aty x)))
      end).
  (** group_norm.rs:13-34 [field], 36-58 [collect_snapshots]; Burn refuses channels that the
      groups do not divide. *)
  Definition gn_module (n : rnode) : ires gn_mod :=
    ibind (iexpect (gn_config n)) (fun c =>
    ibind (features n) (fun f =>
    if (fst c =? 0) || negb (f mod fst c =? 0) then IErr
    else ibind (param n 1 [f]) (fun g => ibind (param n 2 [f]) (fun b => IOk (mkGn (fst c) f (snd c) g b))))).
  Definition group_norm_run (n : rnode) (e : string -> option (tensor T)) : option (string * tensor T) :=
    match gn_module n with IOk m => forward_with e n (gn_forward m) | _ => None end.
  (** onnx-ir instance_norm.rs:73-114; instance_norm.rs:13-32 [field], 34-56
      [collect_snapshots]. *)
  Definition infer_instance_norm (n : rnode) : ires argty :=
    if negb (forallb (fun kv => mem_str (fst kv) ["epsilon"]%string) (nattrs n)) then IErr
    else ibind (first_input n) (fun x => IOk (aty x)).
  Definition in_module (n : rnode) : ires gn_mod :=
    ibind (float_or n "epsilon" epsilon_bits) (fun eps =>
    ibind (features n) (fun f =>
    ibind (param n 1 [f]) (fun g => ibind (param n 2 [f]) (fun b => IOk (mkGn f f eps g b))))).
  Definition instance_norm_run (n : rnode) (e : string -> option (tensor T)) : option (string * tensor T) :=
    match in_module n with IOk m => forward_with e n (gn_forward m) | _ => None end.
End Run.
