(** Model of crates/onnx-ir/src/simplify/coalesce_attention.rs. *)
From Flocq Require Import BinarySingleNaN.
From Verif Require Export IR_Model Float_Model Fold_Model.

(** The bits of a 32-bit float ([AttributeValue::Float32] is represented by its
    bits); the NaN bits are those Rust uses for its own NaN. *)
Definition bits32 (x : f32) : N :=
  let sign (s : bool) := if s then 2147483648%N else 0%N in
  match x with
  | B754_zero s => sign s
  | B754_infinity s => (sign s + 2139095040)%N
  | B754_nan => 2143289344%N
  | B754_finite s m e _ =>
      (sign s + if (m <? 8388608)%positive then Npos m else Z.to_N (e + 150) * 8388608 + (Npos m - 8388608))%N
  end.

Definition one64 : f64 := f64_of_Z 1.

(** [Argument::value] (ir/argument.rs:352-397) followed by [scalar_f64]
    (ir/tensor_data_ext.rs): no constant, constant data of a type that is not
    converted, an empty constant (a panic), or the first element. *)
Inductive reading := NoValue | NotNumber | EmptyData | Number (v : f64).

Fixpoint indexed {A} (i : nat) (l : list A) : list (nat * A) :=
  match l with [] => [] | x :: r => (i, x) :: indexed (S i) r end.

(** crates/onnx-ir/src/ir/argument.rs:289-297 [ArgType::rank]. *)
Definition ty_rank (ty : argty) : N :=
  match ty with ScalarTensor _ => 1 | ScalarNative _ => 0 | ShapeT _ => 1 | TensorT t => tt_rank t end%N.

(** [inputs[k]], [outputs[0]]: out of bounds is a panic. *)
Definition input (n : rnode) (k : nat) : ev arg := match nth_error (ninputs n) k with Some a => Done a | None => Panic end.
Definition output0 (n : rnode) : ev arg := match noutputs n with o :: _ => Done o | [] => Panic end.

(** [if let Some(..) = x { .. } else { .. }]. *)
Definition if_some {A B} (x : ev A) (f : A -> ev B) (g : ev B) : ev B :=
  match x with Done a => f a | Skip => g | Panic => Panic end.

Section Attention.
  Variable scalar : arg -> reading.

  (** Lines 577-585 [build_producer_map]: the last node producing a name. *)
  Definition producer (nodes : list rnode) (x : string) : option (nat * rnode) :=
    find (fun p => mem_str x (map aname (noutputs (snd p)))) (rev (indexed 0 nodes)).

  (** Lines 587-595 [build_consumer_map]: an entry for every input. *)
  Definition consumers (nodes : list rnode) (x : string) : list nat :=
    flat_map (fun p => map (fun _ => fst p) (filter (fun i => String.eqb (aname i) x) (ninputs (snd p)))) (indexed 0 nodes).

  (** Lines 571-575 [is_single_use]. *)
  Definition single_use (nodes : list rnode) (x : string) : bool := Nat.eqb (length (consumers nodes x)) 1.

  (** Lines 249-286 [try_extract_scale]. *)
  Definition try_extract_scale (nodes : list rnode) (n : rnode) : ev (string * f64) :=
    ebind (output0 n) (fun o =>
    if negb (single_use nodes (aname o)) then Skip
    else if String.eqb (ntype n) "Div" then
      ebind (input n 1) (fun d =>
      match scalar d with
      | NoValue | NotNumber => Skip
      | EmptyData => Panic
      | Number v => if is_zero v then Skip else emap (fun i => (aname i, div64 one64 v)) (input n 0)
      end)
    else if String.eqb (ntype n) "Mul" then
      ebind (input n 1) (fun b =>
      match scalar b with
      | EmptyData => Panic
      | Number v => emap (fun a => (aname a, v)) (input n 0)
      | NoValue | NotNumber =>
          ebind (input n 0) (fun a =>
          match scalar a with
          | EmptyData => Panic
          | Number v => Done (aname b, v)
          | NoValue | NotNumber => Skip
          end)
      end)
    else Skip).

  (** Lines 211-244: the body of the loop over the two orders. *)
  Definition mask_order (nodes : list rnode) (add : rnode) (u k : nat) : ev (arg * string * option f64) :=
    ebind (input add u) (fun up =>
    ebind (input add k) (fun mask =>
    match producer nodes (aname up) with
    | None => Skip
    | Some (_, un) =>
        let direct := if (String.eqb (ntype un) "MatMul" && single_use nodes (aname up))%bool
                      then Done (mask, aname up, None) else Skip in
        if_some (try_extract_scale nodes un)
          (fun xs => match producer nodes (fst xs) with
                     | Some (_, mm) => if String.eqb (ntype mm) "MatMul" then Done (mask, fst xs, Some (snd xs)) else direct
                     | None => direct
                     end)
          direct
    end)).

  (** Lines 200-247 [try_extract_mask_and_upstream]. *)
  Definition try_extract_mask (nodes : list rnode) (add : rnode) : ev (arg * string * option f64) :=
    if_some (mask_order nodes add 0 1) Done (mask_order nodes add 1 0).

  (** Lines 316-328 [get_softmax_axis]; [into_i64] panics on another type. *)
  Definition softmax_axis (n : rnode) (rank : N) : ev Z :=
    ebind (match get_attr n "axis" with
           | None => Done (-1)%Z
           | Some (AInt z) => Done z
           | Some _ => Panic
           end) (fun axis =>
    let a := if (axis <? 0)%Z then (axis + Z.of_N rank)%Z else axis in
    if ((a <? 0) || (Z.of_N rank <=? a))%Z%bool then Skip else Done a).

  (** Lines 331-364 [is_last_two_dims_swap]. *)
  Definition swap_perm (rank : N) : list Z :=
    map (fun i => let i := Z.of_nat i in
                  if (i <? Z.of_N rank - 2)%Z then i else if (i =? Z.of_N rank - 2)%Z then (Z.of_N rank - 1)%Z else (Z.of_N rank - 2)%Z)
        (seq 0 (N.to_nat rank)).
  Fixpoint eq_list (a b : list Z) : bool :=
    match a, b with
    | [], [] => true
    | x :: a', y :: b' => Z.eqb x y && eq_list a' b'
    | _, _ => false
    end%bool.
  Definition perm_attr (n : rnode) (dflt : ev (list Z)) : ev (list Z) :=
    match get_attr n "perm" with
    | None => dflt
    | Some (AInts p) => Done p
    | Some _ => Panic
    end.
  Definition last_two_swap (n : rnode) : ev bool :=
    ebind (input n 0) (fun i =>
    let rank := ty_rank (aty i) in
    if (rank <? 2)%N then Done false
    else ebind (perm_attr n (Done (rev (map Z.of_nat (seq 0 (N.to_nat rank)))))) (fun p => Done (eq_list p (swap_perm rank)))).

  Definition has_value (a : arg) : bool := match scalar a with NoValue => false | _ => true end.

  (** Lines 366-412 [try_standard_k_pattern]. *)
  Definition standard_k (nodes : list rnode) (qk : rnode) : ev (arg * arg * option (arg * f64)) :=
    ebind (input qk 1) (fun kt =>
    ebind (try (producer nodes (aname kt))) (fun p =>
    let tr := snd p in
    if negb (String.eqb (ntype tr) "Transpose") then Skip
    else ebind (last_two_swap tr) (fun ok =>
    if negb ok then Skip
    else ebind (output0 tr) (fun o =>
    if negb (single_use nodes (aname o)) then Skip
    else ebind (input qk 0) (fun q =>
    ebind (input tr 0) (fun k =>
    match producer nodes (aname q) with
    | None => Done (q, k, None)
    | Some (_, m) =>
        if String.eqb (ntype m) "Mul" then
          ebind (output0 m) (fun om =>
          if single_use nodes (aname om) then
            if_some (try_extract_scale nodes m)
              (fun xs => ebind (input m 1) (fun b => ebind (input m 0) (fun a =>
                           Done (q, k, Some (if has_value b then a else b, snd xs)))))
              (Done (q, k, None))
          else Done (q, k, None))
        else Done (q, k, None)
    end)))))).

  (** Lines 536-546 [find_shared_scalar_inputs]: the positions of the inputs
      that are not shared. *)
  Definition shared_scalar (a b : rnode) : ev (nat * nat) :=
    ebind (input a 0) (fun a0 => ebind (input b 0) (fun b0 =>
    if String.eqb (aname a0) (aname b0) then Done (1, 1)
    else ebind (input b 1) (fun b1 =>
    if String.eqb (aname a0) (aname b1) then Done (1, 0)
    else ebind (input a 1) (fun a1 =>
    if String.eqb (aname a1) (aname b0) then Done (0, 1)
    else if String.eqb (aname a1) (aname b1) then Done (0, 0)
    else Skip)))).

  (** Lines 557-565 [is_perm_with_last_two_swapped]. *)
  Definition perm_swapped (a b : list Z) : bool :=
    match rev a, rev b with
    | x1 :: x2 :: xs, y1 :: y2 :: ys => (Z.eqb x1 y2 && Z.eqb x2 y1 && eq_list xs ys)%bool
    | _, _ => false
    end.

  (** The type of the corrected K (lines 494-503): the last two dimensions of a
      known shape swapped. *)
  Definition swap_last {A} (l : list A) : list A :=
    match rev l with x :: y :: r => rev (y :: x :: r) | _ => l end.
  Definition swapped_ty (ty : argty) : argty :=
    match ty with
    | TensorT t => TensorT (mkTT (tt_dtype t) (tt_rank t) (option_map swap_last (tt_shape t)))
    | _ => ty
    end.

  (** Lines 414-532 [try_prescaled_qk_pattern]. *)
  Definition prescaled_qk (nodes : list rnode) (qk : rnode) (qk_idx : nat) : ev (arg * arg * option f64 * list (nat * rnode)) :=
    ebind (input qk 0) (fun x0 =>
    ebind (try (producer nodes (aname x0))) (fun pq =>
    ebind (input qk 1) (fun x1 =>
    ebind (try (producer nodes (aname x1))) (fun pk =>
    let q_mul := snd pq in
    let k_mul := snd pk in
    if negb (String.eqb (ntype q_mul) "Mul" && String.eqb (ntype k_mul) "Mul") then Skip
    else ebind (output0 q_mul) (fun qo =>
    if negb (single_use nodes (aname qo)) then Skip
    else ebind (output0 k_mul) (fun ko =>
    if negb (single_use nodes (aname ko)) then Skip
    else ebind (shared_scalar q_mul k_mul) (fun ij =>
    ebind (input q_mul (1 - fst ij)) (fun sc =>
    if (1 <? ty_rank (aty sc))%N then Skip
    else ebind (input q_mul (fst ij)) (fun qt =>
    ebind (try (producer nodes (aname qt))) (fun q_tr =>
    if negb (String.eqb (ntype (snd q_tr)) "Transpose") then Skip
    else ebind (input k_mul (snd ij)) (fun kt =>
    ebind (try (producer nodes (aname kt))) (fun k_tr =>
    if negb (String.eqb (ntype (snd k_tr)) "Transpose") then Skip
    else ebind (perm_attr (snd q_tr) Skip) (fun qp =>
    ebind (perm_attr (snd k_tr) Skip) (fun kp =>
    if negb (perm_swapped qp kp) then Skip
    else
      let name := (nname qk ++ "_k_corrected")%string in
      let k_out := mkArg name (swapped_ty (aty kt)) (asrc kt) in
      let rank := ty_rank (aty kt) in
      if (rank <? 2)%N then Panic
      else
        let transpose := mkNode "Transpose" name [kt] [k_out] [("perm"%string, AInts (swap_perm rank))] in
        match scalar sc with
        | EmptyData => Panic
        | Number v => Done (qt, k_out, Some (mul64 v v), [(qk_idx, transpose)])
        | NoValue | NotNumber => Done (qt, k_out, None, [(qk_idx, transpose)])
        end)))))))))))))).

  (** Lines 288-313 [build_attention_node]. *)
  Definition attention_node (fm : rnode) (q k v : arg) (mask : option arg) (scale : option f64) : rnode :=
    mkNode "Attention" (nname fm ++ "_attention")
      ([q; k; v] ++ match mask with Some m => [m] | None => [] end)
      (noutputs fm)
      (match scale with Some s => [("scale"%string, AFloat (bits32 (as_f32 s)))] | None => [] end).

  (** Lines 87-118: from the input of Softmax back to the name of the scores;
      with the mask and the scale found on the way. *)
  Definition upstream (nodes : list rnode) (x : string) : ev (string * option arg * option f64) :=
    ebind (match producer nodes x with
           | Some (_, add) =>
               if String.eqb (ntype add) "Add" then
                 ebind (output0 add) (fun o =>
                 if single_use nodes (aname o) then
                   if_some (try_extract_mask nodes add)
                     (fun r => Done (snd (fst r), Some (fst (fst r)), snd r))
                     (Done (x, None, None))
                 else Done (x, None, None))
               else Done (x, None, None)
           | None => Done (x, None, None)
           end) (fun r =>
    match r with
    | (x1, mask, None) =>
        match producer nodes x1 with
        | Some (_, sn) => if_some (try_extract_scale nodes sn) (fun xs => Done (fst xs, mask, Some (snd xs))) (Done r)
        | None => Done r
        end
    | _ => Done r
    end).

  (** Lines 63-192 [try_match_sdpa]. *)
  Definition match_sdpa (nodes : list rnode) (softmax : rnode) : ev (list (nat * rnode)) :=
    ebind (try (nth_error (ninputs softmax) 0)) (fun si =>
    let rank := ty_rank (aty si) in
    if (rank <? 2)%N then Skip
    else ebind (softmax_axis softmax rank) (fun axis =>
    if negb (axis =? Z.of_N rank - 1)%Z then Skip
    else ebind (upstream nodes (aname si)) (fun ups =>
    let '(x, mask, scale) := ups in
    ebind (try (producer nodes x)) (fun pqk =>
    let qk := snd pqk in
    if negb (String.eqb (ntype qk) "MatMul") then Skip
    else ebind (output0 qk) (fun qo =>
    if negb (single_use nodes (aname qo)) then Skip
    else ebind
      (if_some (standard_k nodes qk)
         (fun r => let '(q, k, pre) := r in
            match scale, pre with
            | None, Some (q_real, s) => Done (q_real, k, Some s, [])
            | _, _ => Done (q, k, scale, [])
            end)
         (ebind (prescaled_qk nodes qk (fst pqk)) (fun r => let '(q, k, pre, extras) := r in
            Done (q, k, match pre with Some _ => pre | None => scale end, extras)))) (fun r =>
    let '(q, k, scale', extras) := r in
    if negb ((ty_rank (aty q) =? 4)%N && (ty_rank (aty k) =? 4)%N) then Skip
    else ebind (output0 softmax) (fun so =>
    match consumers nodes (aname so) with
    | [fi] =>
        ebind (match nth_error nodes fi with Some fm => Done fm | None => Panic end) (fun fm =>
        if negb (String.eqb (ntype fm) "MatMul") then Skip
        else ebind (input fm 0) (fun f0 =>
        if negb (String.eqb (aname f0) (aname so)) then Skip
        else ebind (input fm 1) (fun v =>
        if negb (ty_rank (aty v) =? 4)%N then Skip
        else Done (extras ++ [(fi, attention_node fm q k v mask scale')]))))
    | _ => Skip
    end))))))).

  (** Lines 41-50: the replacements, Softmax by Softmax. *)
  Fixpoint collect (nodes l : list rnode) : ev (list (nat * rnode)) :=
    match l with
    | [] => Done []
    | n :: r =>
        if String.eqb (ntype n) "Softmax" then
          if_some (match_sdpa nodes n) (fun m => emap (app m) (collect nodes r)) (collect nodes r)
        else collect nodes r
    end.

  (** [nodes[idx] = replacement]. *)
  Fixpoint set_nth {A} (l : list A) (i : nat) (x : A) : list A :=
    match l, i with
    | [], _ => []
    | _ :: r, O => x :: r
    | y :: r, S j => y :: set_nth r j x
    end.

  (** Lines 31-61 [coalesce_attention]. *)
  Definition coalesce_attention (nodes : list rnode) : ev (list rnode) :=
    emap (fun reps => fold_left (fun ns p => set_nth ns (fst p) (snd p)) reps nodes) (collect nodes nodes).
End Attention.
