(** RNN, GRU and LSTM as ONNX defines them.  Nothing here mentions the generated
    code.  Numbers are any type with an addition and a multiplication; [minus1] is
    one minus a number. *)
From Verif Require Export Tensor_Spec IR_Model.
Import Tensor_Spec.
Local Open Scope N_scope.

Inductive direction := Forward | Reverse | Bidirectional.
Definition directions (d : direction) : N := match d with Bidirectional => 2 | _ => 1 end.
(** Whether the [d]-th direction goes from the end to the start. *)
Definition backwards (dir : direction) (d : N) : bool :=
  match dir with Forward => false | Reverse => true | Bidirectional => d =? 1 end.
Inductive activation := Sigmoid | Tanh | Relu | HardSigmoid | LeakyRelu | ThresholdedRelu | ScaledTanh | Elu | Softsign | Softplus | Affine.
Definition activation_name (a : activation) : string :=
  match a with
  | Sigmoid => "Sigmoid" | Tanh => "Tanh" | Relu => "Relu" | HardSigmoid => "HardSigmoid" | LeakyRelu => "LeakyRelu"
  | ThresholdedRelu => "ThresholdedRelu" | ScaledTanh => "ScaledTanh" | Elu => "Elu" | Softsign => "Softsign" | Softplus => "Softplus" | Affine => "Affine"
  end%string.

Section Recurrent.
  Context {T : Type} (add mul : T -> T -> T) (zero : T) (minus1 : T -> T) (act : activation -> T -> T).
  Definition at_ (t : tensor T) (idx : list N) : T := match get t idx with Some v => v | None => zero end.
  Definition sum (n : N) (f : N -> T) : T := fold_right add zero (map f (upto n)).
  Definition vec := N -> T.

  (** The weights: [W] is [directions, gates * hidden, input], [R] is
      [directions, gates * hidden, hidden], [B] is [directions, 2 * gates * hidden]. *)
  Record weights := mkW { gates : N; hidden : N; input : N; wW : tensor T; wR : tensor T; wB : option (tensor T) }.
  Definition weights_ok (w : weights) (dirs : N) : Prop :=
    twf (wW w) /\ tshape (wW w) = [dirs; gates w * hidden w; input w] /\
    twf (wR w) /\ tshape (wR w) = [dirs; gates w * hidden w; hidden w] /\
    (forall b, wB w = Some b -> twf b /\ tshape b = [dirs; 2 * gates w * hidden w]).
  Section Step.
    Variable w : weights.
    Variable d : N.
    Definition xW (g : N) (x : vec) (j : N) : T := sum (input w) (fun i => mul (x i) (at_ (wW w) [d; g * hidden w + j; i])).
    Definition hR (g : N) (h : vec) (j : N) : T := sum (hidden w) (fun k => mul (h k) (at_ (wR w) [d; g * hidden w + j; k])).
    Definition Wb (g j : N) : T := match wB w with Some b => at_ b [d; g * hidden w + j] | None => zero end.
    Definition Rb (g j : N) : T := match wB w with Some b => at_ b [d; (gates w + g) * hidden w + j] | None => zero end.
    Definition pre (g : N) (x h : vec) (j : N) : T := add (add (add (xW g x j) (hR g h j)) (Wb g j)) (Rb g j).
    (** One step of each; the gates are in ONNX's order: i, o, f, c and z, r, h. *)
    Definition rnn_step (f : T -> T) (x : vec) (h : vec) : vec := fun j => f (pre 0 x h j).
    Definition lstm_step (f g hh : T -> T) (coupled : bool) (x : vec) (s : vec * vec) : vec * vec :=
      let (h, c) := s in
      let i_ := fun j => f (pre 0 x h j) in
      let o_ := fun j => f (pre 1 x h j) in
      let f_ := fun j => if coupled then minus1 (i_ j) else f (pre 2 x h j) in
      let c_ := fun j => g (pre 3 x h j) in
      let c' := fun j => add (mul (f_ j) (c j)) (mul (i_ j) (c_ j)) in
      (fun j => mul (o_ j) (hh (c' j)), c').
    Definition gru_step (f g : T -> T) (linear_before_reset : bool) (x : vec) (h : vec) : vec :=
      let z := fun j => f (pre 0 x h j) in
      let r := fun j => f (pre 1 x h j) in
      let n := fun j => g (if linear_before_reset
        then add (add (xW 2 x j) (mul (r j) (add (hR 2 h j) (Rb 2 j)))) (Wb 2 j)
        else add (add (add (xW 2 x j) (hR 2 (fun k => mul (r k) (h k)) j)) (Rb 2 j)) (Wb 2 j)) in
      fun j => add (mul (minus1 (z j)) (n j)) (mul (z j) (h j)).
  End Step.

  (** The state after [k] steps along a sequence of length [len]. *)
  Fixpoint after {S} (step : vec -> S -> S) (x : N -> vec) (len : N) (back : bool) (s0 : S) (k : nat) : S :=
    match k with
    | O => s0
    | Datatypes.S k' => step (x (if back then len - 1 - N.of_nat k' else N.of_nat k')) (after step x len back s0 k')
    end.
  (** The number of steps made when the element at place [t] has been read. *)
  Definition steps_at (len : N) (back : bool) (t : N) : nat := N.to_nat (if back then len - t else t + 1).
  (** With [layout] 0 (false) the input [X] is [sequence, batch, input], with 1 (true)
      [batch, sequence, input]. *)
  Definition shape3 (layout : bool) (a b c : N) : list N := if layout then [b; a; c] else [a; b; c].
  (** [Y], the state after every element, is [sequence, directions, batch, hidden] or
      [batch, sequence, directions, hidden]. *)
  Definition shape4 (layout : bool) (t d b j : N) : list N := if layout then [b; t; d; j] else [t; d; b; j].
  Definition outputs_all {S} (layout : bool) (step : N -> vec -> S -> S) (s0 : N -> N -> S) (part : S -> vec) (dir : direction) (H : N) (X Y : tensor T) : Prop :=
    exists len batch inp, tshape X = shape3 layout len batch inp /\ twf Y /\ tshape Y = shape4 layout len (directions dir) batch H /\
    forall t d b j, t < len -> d < directions dir -> b < batch -> j < H ->
      get Y (shape4 layout t d b j) =
        Some (part (after (step d) (fun t i => at_ X (shape3 layout t b i)) len (backwards dir d) (s0 d b) (steps_at len (backwards dir d) t)) j).
  (** [Y_h], the state at the end, is [directions, batch, hidden] or [batch, directions, hidden]. *)
  Definition outputs_last {S} (layout : bool) (step : N -> vec -> S -> S) (s0 : N -> N -> S) (part : S -> vec) (dir : direction) (H : N) (X Y : tensor T) : Prop :=
    exists len batch inp, tshape X = shape3 layout len batch inp /\ twf Y /\ tshape Y = shape3 layout (directions dir) batch H /\
    forall d b j, d < directions dir -> b < batch -> j < H ->
      get Y (shape3 layout d b j) =
        Some (part (after (step d) (fun t i => at_ X (shape3 layout t b i)) len (backwards dir d) (s0 d b) (N.to_nat len)) j).
  (** The initial state: given, of the shape of [Y_h], or zero. *)
  Definition initial (layout : bool) (h0 : option (tensor T)) (d b : N) : vec := fun j => match h0 with Some t => at_ t (shape3 layout d b j) | None => zero end.
  Definition initial_ok (layout : bool) (h0 : option (tensor T)) (dirs batch H : N) : Prop := forall t, h0 = Some t -> twf t /\ tshape t = shape3 layout dirs batch H.
End Recurrent.

(** ** Attributes *)
Definition direction_name (d : direction) : string := match d with Forward => "forward" | Reverse => "reverse" | Bidirectional => "bidirectional" end.
Definition direction_attr (n : rnode) (dir : direction) : Prop :=
  match get_attr n "direction" with None => dir = Forward | Some (AString s) => s = direction_name dir | Some _ => False end.
(** The activations of one direction, given once for each direction. *)
Definition activations_attr (n : rnode) (dir : direction) (default acts : list activation) : Prop :=
  match get_attr n "activations" with
  | None => acts = default
  | Some (AStrings l) => let names := map activation_name acts in l = (if directions dir =? 2 then names ++ names else names) /\ length acts = length default
  | Some _ => False
  end.
Definition layout_attr (n : rnode) (layout : bool) : Prop :=
  match get_attr n "layout" with None => layout = false | Some (AInt z) => z = (if layout then 1 else 0)%Z | Some _ => False end.
Definition flag_attr (n : rnode) (name : string) (b : bool) : Prop :=
  match get_attr n name with None => b = false | Some (AInt z) => b = negb (z =? 0)%Z | Some _ => False end.

(** ** Inputs *)
(** Optional inputs that are left out have no name, or are not there. *)
Definition given (n : rnode) (i : nat) : option arg :=
  match nth_error (ninputs n) i with Some a => if is_optional a then None else Some a | None => None end.
(** A variable of rank [r] whose type says nothing wrong about the tensor [t]. *)
Definition typed {T} (a : arg) (r : N) (t : tensor T) : Prop :=
  exists ty, aty a = TensorT ty /\ tt_rank ty = r /\ forall s, tt_shape ty = Some s -> Forall2 (fun o d => o = None \/ o = Some d) s (tshape t).
Definition optional_input {T} (look : arg -> option (tensor T)) (n : rnode) (i : nat) (r : N) (o : option (tensor T)) : Prop :=
  match given n i with None => o = None | Some a => exists t, o = Some t /\ look a = Some t /\ typed a r t end.
(** The inputs X, W, R, B and initial_h of a node without sequence_lens: [value] has the
    constants, [e] the variables when the node runs. *)
Definition recurrent_inputs {T} (value : arg -> option (tensor T)) (e : string -> option (tensor T)) (n : rnode)
    (layout : bool) (dir : direction) (len batch : N) (X : tensor T) (w : weights) (h0 : option (tensor T)) : Prop :=
  (exists x aw ar rest, ninputs n = x :: aw :: ar :: rest /\
     e (aname x) = Some X /\ typed x 3 X /\ value aw = Some (wW w) /\ typed aw 3 (wW w) /\ value ar = Some (wR w) /\ typed ar 3 (wR w)) /\
  twf X /\ tshape X = shape3 layout len batch (input w) /\
  weights_ok w (directions dir) /\
  optional_input value n 3 2 (wB w) /\ given n 4 = None /\
  optional_input (fun a => e (aname a)) n 5 3 h0 /\ initial_ok layout h0 (directions dir) batch (hidden w) /\
  (forall a, is_optional a = true -> value a = None).
(** No two outputs have the same name; the empty name stands for one that is left out. *)
Definition distinct_outputs (n : rnode) : Prop :=
  forall i j a b, nth_error (noutputs n) i = Some a -> nth_error (noutputs n) j = Some b -> aname a = aname b -> aname a <> ""%string -> i = j.
