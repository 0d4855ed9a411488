(** The importer's and the code generator's parts for RNN, GRU and LSTM:
    crates/onnx-ir/src/node/{rnn,gru,lstm}.rs and crates/burn-onnx/src/burn/node/ with
    the same names.  The three are written in the same way; where they differ, [k] says
    which it is.  Sizes ([usize] in the code) are unbounded here, except where
    [as usize] makes one of a number in the model. *)
From Verif Require Export ShapeOps_Model Recur_Spec.
From Verif Require Import Index_Model Linear_Model.
Import Recur_Spec Tensor_Spec.
Local Open Scope N_scope.

Inductive rkind := KRnn | KGru | KLstm.
Definition has_coupling (k : rkind) : bool := match k with KRnn => false | _ => true end.

(** ** Configuration *)
(** node/rnn.rs:16-33, gru.rs:92-109, lstm.rs:87-108.  [to_lowercase] is modelled for
    ASCII. *)
Definition parse_direction (s : string) : ires direction :=
  let l := lower s in
  if String.eqb l "forward" then IOk Forward
  else if String.eqb l "reverse" then IOk Reverse
  else if String.eqb l "bidirectional" then IOk Bidirectional
  else IErr.
(** node/rnn.rs:60-88, gru.rs:65-90, lstm.rs:50-76. *)
Definition parse_activation (s : string) : ires activation :=
  let l := lower s in
  if String.eqb l "sigmoid" then IOk Sigmoid
  else if String.eqb l "tanh" then IOk Tanh
  else if String.eqb l "relu" then IOk Relu
  else if String.eqb l "hardsigmoid" then IOk HardSigmoid
  else if String.eqb l "leakyrelu" then IOk LeakyRelu
  else if String.eqb l "thresholdedrelu" then IOk ThresholdedRelu
  else if String.eqb l "scaledtanh" then IOk ScaledTanh
  else if String.eqb l "elu" then IOk Elu
  else if String.eqb l "softsign" then IOk Softsign
  else if String.eqb l "softplus" then IOk Softplus
  else if String.eqb l "affine" then IOk Affine
  else IErr.
Definition act_eqb (a b : activation) : bool := String.eqb (activation_name a) (activation_name b).
Fixpoint acts_eqb (a b : list activation) : bool :=
  match a, b with [], [] => true | x :: a, y :: b => act_eqb x y && acts_eqb a b | _, _ => false end.
Fixpoint parse_all (l : list string) : ires (list activation) :=
  match l with [] => IOk [] | s :: r => ibind (parse_activation s) (fun a => ibind (parse_all r) (fun b => IOk (a :: b))) end.
Definition default_acts (k : rkind) : list activation :=
  match k with KRnn => [Tanh] | KGru => [Sigmoid; Tanh] | KLstm => [Sigmoid; Tanh; Tanh] end.
Definition bidirectional (d : direction) : bool := match d with Bidirectional => true | _ => false end.
(** node/rnn.rs:376-401, gru.rs:390-424, lstm.rs:456-501. *)
Definition acts_config (k : rkind) (n : rnode) (dir : direction) : ires (list activation) :=
  match get_attr n "activations" with
  | None => IOk (default_acts k)
  | Some (AStrings []) => IOk (default_acts k)
  | Some (AStrings l) =>
      let m := length (default_acts k) in
      if (length l <? m)%nat then IErr
      else ibind (parse_all (firstn m l)) (fun a =>
        if bidirectional dir && (2 * m <=? length l)%nat then
          ibind (parse_all (firstn m (skipn m l))) (fun b => if acts_eqb a b then IOk a else IErr)
        else IOk a)
  | Some _ => IPanic
  end.
(** node/rnn.rs:303-306, gru.rs:379-382, lstm.rs:444-447: whether the attribute is a
    number above zero; its value is not used in the model. *)
Definition clip_config (n : rnode) : ires bool :=
  match get_attr n "clip" with
  | None => IOk false
  | Some (AFloat bits) => IOk ((0 <? bits) && (bits <=? 2139095040))
  | Some _ => IPanic
  end.

Record rconfig := mkRC { rc_input : N; rc_hidden : N; rc_dir : direction; rc_bias : bool; rc_h0 : bool; rc_c0 : bool; rc_peephole : bool;
                         rc_batch_first : bool; rc_clip : bool; rc_flag : bool; rc_acts : list activation }.
(** [inputs.len() > i && !inputs[i].is_optional()]. *)
Definition has_input (n : rnode) (i : nat) : bool := match nth_error (ninputs n) i with Some a => negb (is_optional a) | None => false end.
Definition flag_name (k : rkind) : string := match k with KGru => "linear_before_reset" | _ => "input_forget" end.

Section WithValues.
  Context {T : Type}.
  (** [Argument::value] (ir/argument.rs:351-382): the data of a constant. *)
  Variable value : arg -> option (tensor T).

  (** node/rnn.rs:281-345, gru.rs:296-345, lstm.rs:342-411. *)
  Definition input_size (x w : arg) : option N :=
    let from_type := match aty w with TensorT t => match tt_shape t with Some [_; _; c] => c | _ => None end | _ => None end in
    match from_type with
    | Some c => Some c
    | None =>
        match value w with
        | Some v => match tshape v with
                    | [_; _; c] => Some c
                    | _ => match aty x with TensorT t => match tt_shape t with Some (_ :: _ :: c :: _) => c | _ => None end | _ => None end
                    end
        | None => match aty x with TensorT t => match tt_shape t with Some (_ :: _ :: c :: _) => c | _ => None end | _ => None end
        end
    end.
  (** node/rnn.rs:270-415, gru.rs:294-450, lstm.rs:340-521 [extract_config].  Which of two
      faulty attributes is reported is not kept; the attributes activation_alpha and
      activation_beta, which only GRU reads and nothing uses, are left out. *)
  Definition recur_config (k : rkind) (n : rnode) : ires rconfig :=
    match ninputs n with
    | x :: w :: _ =>
        ibind (match input_size x w with Some i => IOk i | None => IErr end) (fun input =>
        ibind (match get_attr n "hidden_size" with None => IErr | Some a => ibind (attr_i64 a) (fun z => IOk (to_usize z)) end) (fun hidden =>
        ibind (match get_attr n "direction" with None => IOk Forward | Some (AString s) => parse_direction s | Some _ => IPanic end) (fun dir =>
        ibind (attr_i64_or n "layout" 0) (fun layout =>
        ibind (clip_config n) (fun clip =>
        ibind (if has_coupling k then ibind (attr_i64_or n (flag_name k) 0) (fun z => IOk (negb (z =? 0)%Z)) else IOk false) (fun flag =>
        ibind (acts_config k n dir) (fun acts =>
          IOk (mkRC input hidden dir (has_input n 3) (has_input n 5)
                    (match k with KLstm => has_input n 6 | _ => false end) (match k with KLstm => has_input n 7 | _ => false end)
                    (layout =? 1)%Z clip flag acts))))))))
    | _ => IPanic
    end.

  (** ** Types: node/rnn.rs:150-268, gru.rs:193-292, lstm.rs:198-338. *)
  Definition rank3 (n : rnode) (i : nat) : ires tensor_type :=
    match nth_error (ninputs n) i with
    | Some a => match aty a with TensorT t => if tt_rank t =? 3 then IOk t else IErr | _ => IErr end
    | None => IPanic
    end.
  Definition optional_rank (n : rnode) (i : nat) (r : N) : ires unit :=
    match nth_error (ninputs n) i with
    | Some a => if is_optional a then IOk tt else match aty a with TensorT t => if tt_rank t =? r then IOk tt else IErr | _ => IOk tt end
    | None => IOk tt
    end.
  Definition infer_recur (k : rkind) (n : rnode) : ires (list argty) :=
    ibind (rank3 n 0) (fun x =>
    ibind (rank3 n 1) (fun _ =>
    ibind (rank3 n 2) (fun _ =>
    ibind (optional_rank n 3 2) (fun _ =>
    ibind (optional_rank n 5 3) (fun _ =>
    ibind (match k with KLstm => optional_rank n 6 3 | _ => IOk tt end) (fun _ =>
    ibind (recur_config k n) (fun c =>
    if rc_peephole c then IErr
    else if has_input n 4 then IErr
    else let ty r := TensorT (mkTT (tt_dtype x) r None) in
         IOk (firstn (length (noutputs n)) (match k with KLstm => [ty 4; ty 3; ty 3] | _ => [ty 4; ty 3] end))))))))).
End WithValues.

(** ** The field: the configuration of the Burn module, and what is stored for it *)
Record rmodule := mkM { m_bi : bool; m_in : N; m_hid : N; m_bias : bool; m_batch_first : bool; m_reverse : bool; m_flag : bool; m_clip : bool;
                        m_acts : list (option activation) }.
(** burn/node/rnn.rs:28-49, 242-258, lstm.rs:32-53, 252-268. *)
Definition burn_has (a : activation) : bool :=
  match a with Sigmoid | Tanh | Relu | HardSigmoid | LeakyRelu | Softplus => true | _ => false end.
(** burn/node/rnn.rs:269-333, lstm.rs:279-358, gru.rs:407-453 [field].  [None]: a panic.
    Only activations that are not the default are written. *)
Definition gen_field (k : rkind) (c : rconfig) : option rmodule :=
  let reverse := match rc_dir c with Reverse => true | _ => false end in
  let bi := bidirectional (rc_dir c) in
  let acts := map (fun ad => if act_eqb (fst ad) (snd ad) then None else Some (fst ad)) (combine (rc_acts c) (default_acts k)) in
  match k with
  | KGru =>
      if rc_clip c then None
      else if acts_eqb (rc_acts c) [Sigmoid; Tanh]
           then Some (mkM bi (rc_input c) (rc_hidden c) (rc_bias c) (if bi then rc_batch_first c else true) false (rc_flag c) false [])
           else None
  | _ =>
      if forallb burn_has (rc_acts c)
      then Some (mkM bi (rc_input c) (rc_hidden c) (rc_bias c) (rc_batch_first c) reverse (rc_flag c) (rc_clip c) acts)
      else None
  end.

(** ** The emitted statement *)
Inductive rex :=
| XIn (x : string)                       (* a variable *)
| XSeq | XHidden | XCell                 (* output_seq, final_state.hidden, final_state.cell *)
| XUnsqueeze (p : nat) (e : rex)         (* e.unsqueeze_dims(&[p]) *)
| XSqueeze0 (e : rex)                    (* e.squeeze_dim(0) *)
| XSplit (h : N) (e : rex)               (* let [a, b, _] = e.dims(); e.reshape([a, b, 2, h]) *)
| XSwap (i j : nat) (e : rex)            (* e.swap_dims(i, j) *)
| XFlip1 (e : rex)                       (* e.flip([1]) *)
| XStep (last : bool) (e : rex).         (* e.slice([0..batch, 0..1 or (len - 1)..len, 0..hidden]).squeeze_dim(1) *)
Record rcode := mkCode { co_input : rex; co_init : list rex; co_outs : list (string * rex) }.

(** burn/node/rnn.rs:339-473, lstm.rs:364-520 [forward].  [None]: [Ident::new] of an empty
    name panics. *)
Definition gen_module_forward (lstm : bool) (c : rconfig) (n : rnode) : option rcode :=
  match ninputs n with
  | x :: _ =>
      let bi := bidirectional (rc_dir c) in
      let state (i : nat) := match nth_error (ninputs n) i with
                             | Some a => Some (if bi then XIn (aname a) else XSqueeze0 (XIn (aname a)))
                             | None => None end in
      let init := if lstm then (if rc_h0 c && rc_c0 c then match state 6%nat, state 5%nat with Some c0, Some h0 => Some [c0; h0] | _, _ => None end else Some [])
                  else (if rc_h0 c then option_map (fun s => [s]) (state 5%nat) else Some []) in
      let last e := if bi then e else XUnsqueeze 0 e in
      let y := if bi then (if rc_batch_first c then XSplit (rc_hidden c) XSeq else XSwap 1 2 (XSplit (rc_hidden c) XSeq))
               else XUnsqueeze 1 XSeq in
      let outs := combine (map aname (noutputs n)) (if lstm then [y; last XHidden; last XCell] else [y; last XHidden]) in
      if existsb (fun o => String.eqb (fst o) "") outs then None
      else option_map (fun i => mkCode (XIn (aname x)) i outs) init
  | [] => None
  end.
(** burn/node/gru.rs:203-391, 459-479. *)
Definition gen_gru_forward (c : rconfig) (n : rnode) : option rcode :=
  match ninputs n with
  | x :: _ =>
      let bi := bidirectional (rc_dir c) in
      let reverse := match rc_dir c with Reverse => true | _ => false end in
      let init := if rc_h0 c then match nth_error (ninputs n) 5 with
                                  | Some a => Some [if bi then XIn (aname a) else XSqueeze0 (XIn (aname a))]
                                  | None => None end
                  else Some [] in
      let named outs := filter (fun o => negb (String.eqb (fst o) "")) (combine (map aname (noutputs n)) outs) in
      if bi then
        let y := if rc_batch_first c then XSplit (rc_hidden c) XSeq else XSwap 1 2 (XSplit (rc_hidden c) XSeq) in
        option_map (fun i => mkCode (XIn (aname x)) i (named [y; XHidden])) init
      else
        let inp := if rc_batch_first c then XIn (aname x) else XSwap 0 1 (XIn (aname x)) in
        let out := if reverse then XFlip1 XSeq else XSeq in
        let y := if rc_batch_first c then XUnsqueeze 2 out else XUnsqueeze 1 (XSwap 0 1 out) in
        option_map (fun i => mkCode (if reverse then XFlip1 inp else inp) i (named [y; XUnsqueeze 0 (XStep (negb reverse) out)])) init
  | [] => None
  end.
Definition gen_forward (k : rkind) : rconfig -> rnode -> option rcode :=
  match k with KGru => gen_gru_forward | KLstm => gen_module_forward true | KRnn => gen_module_forward false end.

(** ** Burn's methods (not part of this repository) *)
Section Tensors.
  Context {T : Type}.
  (** [slice] with a range for every dimension; a range outside is an error. *)
  Definition b_slice (rs : list (N * N)) (t : tensor T) : option (tensor T) :=
    if (length rs =? length (tshape t))%nat && forallb (fun p => snd (fst p) <=? snd p) (combine rs (tshape t))
    then tab (map (fun r => snd r - fst r) rs) (fun idx => get t (map (fun p => fst (fst p) + snd p) (combine rs idx)))
    else None.
  (** [squeeze::<D>()]: all dimensions of size 1 go; the rank must then be [D]. *)
  Definition b_squeeze_all (D : nat) (t : tensor T) : option (tensor T) :=
    let s := filter (fun d => negb (d =? 1)) (tshape t) in
    if (length s =? D)%nat then Some (mkT s (tdata t)) else None.
  Definition b_transpose (t : tensor T) : option (tensor T) :=
    match tshape t with [a; b] => tab [b; a] (fun idx => match idx with [i; j] => get t [j; i] | _ => None end) | _ => None end.
  Definition b_squeeze_dim (p : nat) (t : tensor T) : option (tensor T) :=
    match nth_error (tshape t) p with
    | Some 1 => Some (mkT (firstn p (tshape t) ++ skipn (S p) (tshape t)) (tdata t))
    | _ => None
    end.
  Definition b_unsqueeze (p : nat) (t : tensor T) : option (tensor T) :=
    if (p <=? length (tshape t))%nat then Some (mkT (firstn p (tshape t) ++ 1 :: skipn p (tshape t)) (tdata t)) else None.
  Definition b_split (h : N) (t : tensor T) : option (tensor T) :=
    match tshape t with
    | [a; b; c] => if a * b * c =? a * b * 2 * h then Some (mkT [a; b; 2; h] (tdata t)) else None
    | _ => None
    end.
  Definition swapped {A} (i j : nat) (l : list A) : option (list A) :=
    mapo (fun p => nth_error l (if Nat.eqb p i then j else if Nat.eqb p j then i else p)) (seq 0 (length l)).
  Definition b_swap (i j : nat) (t : tensor T) : option (tensor T) :=
    obind (swapped i j (tshape t)) (fun s => tab s (fun idx => obind (swapped i j idx) (get t))).
  Definition b_flip1 (t : tensor T) : option (tensor T) :=
    match tshape t with
    | [a; b; c] => tab [a; b; c] (fun idx => match idx with [i; j; l] => get t [i; b - 1 - j; l] | _ => None end)
    | _ => None
    end.
  Definition b_step (last : bool) (t : tensor T) : option (tensor T) :=
    match tshape t with
    | [a; b; c] => obind (b_slice [(0, a); (if last then (b - 1, b) else (0, 1)); (0, c)] t) (b_squeeze_dim 1)
    | _ => None
    end.
End Tensors.

Section Running.
  Context {T : Type} (add mul : T -> T -> T) (zero : T) (minus1 : T -> T) (act : activation -> T -> T).
  Variable value : arg -> option (tensor T).
  Let vec := N -> T.

  (** ** The stored tensors *)
  (** burn/node/lstm.rs:115-118, gru.rs:62-63, rnn.rs:90: the gates, and the place of each in
      the tensors of ONNX. *)
  Definition gate_table (k : rkind) : list (string * N) :=
    match k with
    | KLstm => [("input_gate", 0); ("forget_gate", 2); ("output_gate", 1); ("cell_gate", 3)]
    | KGru => [("update_gate", 0); ("reset_gate", 1); ("new_gate", 2)]
    | KRnn => [("gate", 0)]
    end%string.
  Definition gate_count (k : rkind) : N := match k with KLstm => 4 | KGru => 3 | KRnn => 1 end.
  Definition map2o (f : T -> T -> T) (a b : tensor T) : option (tensor T) :=
    if eqs (tshape a) (tshape b) then Some (mkT (tshape a) (map (fun p => f (fst p) (snd p)) (combine (tdata a) (tdata b)))) else None.
  (** lstm.rs:147-199, gru.rs:93-163, rnn.rs:128-196: the tensors of one gate. *)
  Definition gate_snapshots (k : rkind) (c : rconfig) (W R : tensor T) (B : option (tensor T)) (prefix : string) (g : string * N) : option (list (string * tensor T)) :=
    let H := rc_hidden c in
    let start := snd g * H in
    let stop := start + H in
    let path := (prefix ++ fst g)%string in
    obind (obind (b_slice [(start, stop); (0, rc_input c)] W) b_transpose) (fun iw =>
    obind (match B with
           | None => Some []
           | Some b => obind (b_slice [(start, stop)] b) (fun wb =>
                       match k with
                       | KGru => Some [(path ++ ".input_transform.bias", wb)%string]
                       | _ => obind (b_slice [(gate_count k * H + start, gate_count k * H + start + H)] b) (fun rb =>
                              option_map (fun s => [(path ++ ".input_transform.bias", s)%string]) (map2o add wb rb))
                       end)
           end) (fun ib =>
    obind (obind (b_slice [(start, stop); (0, H)] R) b_transpose) (fun hw =>
    obind (match B with
           | None => Some []
           | Some b => match k with
                       | KGru => option_map (fun rb => [(path ++ ".hidden_transform.bias", rb)%string])
                                            (b_slice [(gate_count k * H + start, gate_count k * H + start + H)] b)
                       | _ => Some [(path ++ ".hidden_transform.bias", mkT [H] (repeat zero (N.to_nat H)))%string]
                       end
           end) (fun hb =>
    Some ([(path ++ ".input_transform.weight", iw)%string] ++ ib ++ [(path ++ ".hidden_transform.weight", hw)%string] ++ hb))))).
  (** lstm.rs:132-145, gru.rs:78-91, rnn.rs:108-126: one direction. *)
  Definition dir_snapshots (k : rkind) (c : rconfig) (W R : tensor T) (B : option (tensor T)) (d : N) (prefix : string) : option (list (string * tensor T)) :=
    let H := rc_hidden c in
    let G := gate_count k in
    obind (obind (b_slice [(d, d + 1); (0, G * H); (0, rc_input c)] W) (b_squeeze_all 2)) (fun w =>
    obind (obind (b_slice [(d, d + 1); (0, G * H); (0, H)] R) (b_squeeze_all 2)) (fun r =>
    obind (match B with
           | None => Some None
           | Some b => option_map Some (obind (b_slice [(d, d + 1); (0, 2 * G * H)] b) (b_squeeze_all 1))
           end) (fun b =>
    option_map (@concat _) (mapo (gate_snapshots k c w r b prefix) (gate_table k))))).
  (** lstm.rs:70-205, gru.rs:36-169, rnn.rs:65-202.  [None]: a panic.  Numbers are added
      exactly: the conversion to f64 and back is not modelled. *)
  Definition snapshots (k : rkind) (c : rconfig) (n : rnode) (field : string) : option (list (string * tensor T)) :=
    let data i := obind (nth_error (ninputs n) i) value in
    match data 1%nat, data 2%nat with
    | Some wt, Some rt =>
        let B := data 3%nat in
        let all := if bidirectional (rc_dir c)
                   then match dir_snapshots k c wt rt B 0 "forward.", dir_snapshots k c wt rt B 1 "reverse." with Some a, Some b => Some (a ++ b) | _, _ => None end
                   else dir_snapshots k c wt rt B 0 "" in
        option_map (map (fun pt => (field ++ "." ++ fst pt, snd pt)%string)) all
    | _, _ => Some []
    end.

  (** ** The modules of Burn (not part of this repository) *)
  (** A [Linear] of a gate, loaded: a parameter without stored data, or with data of
      another shape, is an error. *)
  Definition param (snaps : list (string * tensor T)) (path : string) (shape : list N) : option (tensor T) :=
    match sget snaps path with Some t => if eqs (tshape t) shape then Some t else None | None => None end.
  Record linear := mkLin { li_in : N; li_w : tensor T; li_b : option (tensor T) }.
  Definition load_linear (snaps : list (string * tensor T)) (path : string) (a b : N) (bias : bool) : option linear :=
    obind (param snaps (path ++ ".weight") [a; b]) (fun w =>
    if bias then option_map (fun v => mkLin a w (Some v)) (param snaps (path ++ ".bias") [b]) else Some (mkLin a w None)).
  Definition linear_run (l : linear) (x : vec) : vec := fun j =>
    let y := sum add zero (li_in l) (fun i => mul (x i) (at_ zero (li_w l) [i; j])) in
    match li_b l with Some b => add y (at_ zero b [j]) | None => y end.
  Record gate := mkGate { ga_x : linear; ga_h : linear }.
  Definition load_gate (m : rmodule) (snaps : list (string * tensor T)) (path : string) : option gate :=
    obind (load_linear snaps (path ++ ".input_transform") (m_in m) (m_hid m) (m_bias m)) (fun a =>
    option_map (mkGate a) (load_linear snaps (path ++ ".hidden_transform") (m_hid m) (m_hid m) (m_bias m))).
  Definition gate_run (g : gate) (x h : vec) : vec := fun j => add (linear_run (ga_x g) x j) (linear_run (ga_h g) h j).
  (** One step of a module at [path]; the state is the hidden and the cell state, the same
      for those without a cell state. *)
  Definition step_fn := vec -> vec * vec -> vec * vec.
  Definition act_of (m : rmodule) (i : nat) (default : activation) : T -> T :=
    act (match nth_error (m_acts m) i with Some (Some a) => a | _ => default end).
  Definition load_cell (k : rkind) (m : rmodule) (snaps : list (string * tensor T)) (path : string) : option step_fn :=
    match k with
    | KRnn => option_map (fun g (x : vec) (s : vec * vec) =>
                let h := fun j => act_of m 0 Tanh (gate_run g x (fst s) j) in (h, h))
              (load_gate m snaps (path ++ "gate"))
    | KGru =>
        obind (load_gate m snaps (path ++ "update_gate")) (fun gu =>
        obind (load_gate m snaps (path ++ "reset_gate")) (fun gr =>
        option_map (fun gn (x : vec) (s : vec * vec) =>
          let h := fst s in
          let z := fun j => act Sigmoid (gate_run gu x h j) in
          let r := fun j => act Sigmoid (gate_run gr x h j) in
          let n := fun j => act Tanh (if m_flag m then add (linear_run (ga_x gn) x j) (mul (r j) (linear_run (ga_h gn) h j))
                                      else gate_run gn x (fun i => mul (r i) (h i)) j) in
          let h' := fun j => add (mul (minus1 (z j)) (n j)) (mul (z j) (h j)) in (h', h'))
        (load_gate m snaps (path ++ "new_gate"))))
    | KLstm =>
        obind (load_gate m snaps (path ++ "input_gate")) (fun gi =>
        obind (load_gate m snaps (path ++ "forget_gate")) (fun gf =>
        obind (load_gate m snaps (path ++ "output_gate")) (fun go =>
        option_map (fun gc (x : vec) (s : vec * vec) =>
          let (h, c) := s in
          let i_ := fun j => act_of m 0 Sigmoid (gate_run gi x h j) in
          let f_ := fun j => if m_flag m then minus1 (i_ j) else act_of m 0 Sigmoid (gate_run gf x h j) in
          let o_ := fun j => act_of m 0 Sigmoid (gate_run go x h j) in
          let c_ := fun j => act_of m 1 Tanh (gate_run gc x h j) in
          let c' := fun j => add (mul (f_ j) (c j)) (mul (i_ j) (c_ j)) in
          (fun j => mul (o_ j) (act_of m 2 Tanh (c' j)), c'))
        (load_gate m snaps (path ++ "cell_gate")))))
    end.
  (** The states along a sequence. *)
  Fixpoint scan (step : step_fn) (s : vec * vec) (xs : list vec) : list (vec * vec) :=
    match xs with [] => [] | x :: r => let s' := step x s in s' :: scan step s' r end.
  Definition run_cell (step : step_fn) (reverse : bool) (s0 : vec * vec) (xs : list vec) : list (vec * vec) * (vec * vec) :=
    let ss := scan step s0 (if reverse then rev xs else xs) in
    (if reverse then rev ss else ss, last ss s0).
  (** All the sequences of a batch: the outputs, [sequence, batch, hidden] or [batch,
      sequence, hidden], and the last hidden and cell states, [batch, hidden]. *)
  Definition run_batch (H : N) (batch_first : bool) (len batch : N) (step : step_fn) (reverse : bool) (s0 : N -> vec * vec) (X : tensor T) : option (tensor T * tensor T * tensor T) :=
    let xs b := map (fun t i => at_ zero X (if batch_first then [b; t; i] else [t; b; i])) (upto len) in
    let r b := run_cell step reverse (s0 b) (xs b) in
    let out t b j := option_map (fun s => fst s j) (nth_error (fst (r b)) (N.to_nat t)) in
    match (if batch_first then tab [batch; len; H] (fun idx => match idx with [b; t; j] => out t b j | _ => None end)
                          else tab [len; batch; H] (fun idx => match idx with [t; b; j] => out t b j | _ => None end)),
          tab [batch; H] (fun idx => match idx with [b; j] => Some (fst (snd (r b)) j) | _ => None end),
          tab [batch; H] (fun idx => match idx with [b; j] => Some (snd (snd (r b)) j) | _ => None end) with
    | Some y, Some h, Some c => Some (y, h, c)
    | _, _, _ => None
    end.
  (** The initial states of a direction: none, [hidden], or [cell; hidden]. *)
  Definition state_of (init : list (tensor T)) (idx : N -> list N) (b : N) : vec * vec :=
    let v t : vec := fun j => at_ zero t (idx b ++ [j]) in
    match init with
    | [h] => (v h, v h)
    | [c; h] => (v h, v c)
    | _ => (fun _ => zero, fun _ => zero)
    end.
  (** [forward].  A clipping module is left out: it has no result here. *)
  Definition module_run (k : rkind) (m : rmodule) (snaps : list (string * tensor T)) (field : string) (X : tensor T) (init : list (tensor T)) : option (tensor T * tensor T * tensor T) :=
    if m_clip m then None
    else match tshape X with
    | [p; q; i] =>
        if negb (i =? m_in m) then None
        else
        let len := if m_batch_first m then q else p in
        let batch := if m_batch_first m then p else q in
        let H := m_hid m in
        if m_bi m then
          if forallb (fun t => eqs (tshape t) [2; batch; H]) init then
            match load_cell k m snaps (field ++ "." ++ "forward."), load_cell k m snaps (field ++ "." ++ "reverse.") with
            | Some sf, Some sr =>
                match run_batch H (m_batch_first m) len batch sf false (state_of init (fun b => [0; b])) X,
                      run_batch H (m_batch_first m) len batch sr true (state_of init (fun b => [1; b])) X with
                | Some (yf, hf, cf), Some (yr, hr, cr) =>
                    let stack (a b : tensor T) := tab [2; batch; H] (fun idx => match idx with [d; i; j] => get (if d =? 0 then a else b) [i; j] | _ => None end) in
                    match tab [p; q; 2 * H] (fun idx => match idx with [u; v; j] => if j <? H then get yf [u; v; j] else get yr [u; v; j - H] | _ => None end),
                          stack hf hr, stack cf cr with
                    | Some y, Some h, Some c => Some (y, h, c)
                    | _, _, _ => None
                    end
                | _, _ => None
                end
            | _, _ => None
            end
          else None
        else
          if forallb (fun t => eqs (tshape t) [batch; H]) init then
            obind (load_cell k m snaps (field ++ "." ++ "")) (fun s =>
            run_batch H (m_batch_first m) len batch s (m_reverse m) (state_of init (fun b => [b])) X)
          else None
    | _ => None
    end.

  (** ** Running the statement *)
  Fixpoint xeval (e : string -> option (tensor T)) (o : option (tensor T * tensor T * tensor T)) (x : rex) : option (tensor T) :=
    match x with
    | XIn v => e v
    | XSeq => option_map (fun p => fst (fst p)) o
    | XHidden => option_map (fun p => snd (fst p)) o
    | XCell => option_map snd o
    | XUnsqueeze p a => obind (xeval e o a) (b_unsqueeze p)
    | XSqueeze0 a => obind (xeval e o a) (b_squeeze_dim 0)
    | XSplit h a => obind (xeval e o a) (b_split h)
    | XSwap i j a => obind (xeval e o a) (b_swap i j)
    | XFlip1 a => obind (xeval e o a) b_flip1
    | XStep l a => obind (xeval e o a) (b_step l)
    end.
  (** What the module of a node, loaded from its snapshots, gives for the variables [e]. *)
  Definition recur_run (k : rkind) (n : rnode) (field : string) (e : string -> option (tensor T)) : option (list (string * tensor T)) :=
    match recur_config value k n with
    | IOk c =>
        obind (gen_field k c) (fun m =>
        obind (snapshots k c n field) (fun snaps =>
        obind (gen_forward k c n) (fun code =>
        obind (xeval e None (co_input code)) (fun X =>
        obind (mapo (xeval e None) (co_init code)) (fun init =>
        obind (module_run k m snaps field X init) (fun o =>
        mapo (fun p => option_map (pair (fst p)) (xeval e (Some o) (snd p))) (co_outs code)))))))
    | _ => None
    end.
End Running.
