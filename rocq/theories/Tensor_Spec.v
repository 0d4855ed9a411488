(** Tensors as ONNX describes them: a shape and the elements in row-major
    order.  Operators are specified element by element: [tab shape f] is the
    tensor of that shape whose element at multi-index [idx] is [f idx]. *)
From Verif Require Export Util.
Local Open Scope N_scope.

Record tensor (A : Type) := mkT { tshape : list N; tdata : list A }.
Arguments mkT {A}. Arguments tshape {A}. Arguments tdata {A}.

Fixpoint prodN (s : list N) : N := match s with [] => 1 | d :: r => d * prodN r end.

Definition twf {A} (t : tensor A) : Prop := length (tdata t) = N.to_nat (prodN (tshape t)).

Definition upto (n : N) : list N := map N.of_nat (seq 0 (N.to_nat n)).

(** All multi-indices of a shape, the last index varying fastest. *)
Fixpoint indices (s : list N) : list (list N) :=
  match s with
  | [] => [[]]
  | d :: r => flat_map (fun i => map (cons i) (indices r)) (upto d)
  end.

Fixpoint offset (s idx : list N) : N :=
  match s, idx with
  | _ :: r, i :: ir => i * prodN r + offset r ir
  | _, _ => 0
  end.

Definition get {A} (t : tensor A) (idx : list N) : option A :=
  nth_error (tdata t) (N.to_nat (offset (tshape t) idx)).

(** [tab] fails when an element is not defined. *)
Fixpoint mapo {A B} (f : A -> option B) (l : list A) : option (list B) :=
  match l with
  | [] => Some []
  | x :: r => match f x, mapo f r with
              | Some y, Some ys => Some (y :: ys)
              | _, _ => None
              end
  end.
Definition tab {A} (s : list N) (f : list N -> option A) : option (tensor A) :=
  option_map (mkT s) (mapo f (indices s)).

Definition valid_idx (s idx : list N) : Prop := Forall2 (fun i d => i < d) idx s.

(** ** Broadcasting (ONNX, "multidirectional broadcasting"): align shapes at
    the right, missing dimensions count as 1, equal dimensions or a 1. *)
Definition bdim (a b : N) : option N :=
  if a =? b then Some a else if a =? 1 then Some b else if b =? 1 then Some a else None.
Fixpoint brev (a b : list N) : option (list N) :=
  match a, b with
  | [], _ => Some b
  | _, [] => Some a
  | x :: a', y :: b' =>
      match bdim x y, brev a' b' with
      | Some d, Some r => Some (d :: r)
      | _, _ => None
      end
  end.
Definition bshape (a b : list N) : option (list N) := option_map (@rev N) (brev (rev a) (rev b)).

(** The element of a broadcast operand: drop leading indices, index 0 along
    dimensions of size 1. *)
Definition bproj (s idx : list N) : list N :=
  map (fun di => if fst di =? 1 then 0 else snd di)
      (combine s (skipn (length idx - length s) idx)).

Definition lift2 {A B C} (f : A -> B -> C) (x : option A) (y : option B) : option C :=
  match x, y with Some a, Some b => Some (f a b) | _, _ => None end.

Definition elementwise {A} (op : A -> A -> A) (x y : tensor A) : option (tensor A) :=
  match bshape (tshape x) (tshape y) with
  | None => None
  | Some s => tab s (fun idx => lift2 op (get x (bproj (tshape x) idx)) (get y (bproj (tshape y) idx)))
  end.
