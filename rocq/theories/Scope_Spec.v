(** Ownership in straight-line Rust with blocks, branches and loops.  A
    variable may be used while it holds a value; a use by value of a type that
    is not [Copy] takes the value away. *)
From Verif Require Export IR_Model.

(** [Moved]: by value.  [Cloned]: [x.clone()].  [Copied]: a use that leaves the
    value, a borrow or a use of a [Copy] type. *)
Inductive how := Moved | Cloned | Copied.

Inductive stmt :=
| Use (x : string) (h : how)
| Let (xs : list string)          (* new variables, with a value *)
| Assign (x : string)             (* gives an existing variable a value *)
| If_ (a b : list stmt)
| Block (a : list stmt)
| Loop_ (a : list stmt).          (* any number of times *)

(** The variables of the open blocks, innermost first; [true]: has a value. *)
Definition frame := string -> option bool.
Definition state := list frame.
Definition empty : frame := fun _ => None.
Definition set (f : frame) (x : string) (b : bool) : frame := fun y => if String.eqb x y then Some b else f y.

Fixpoint has (s : state) (x : string) : bool :=
  match s with
  | [] => false
  | f :: r => match f x with Some b => b | None => has r x end
  end.
Fixpoint put (s : state) (x : string) (b : bool) : state :=
  match s with
  | [] => []
  | f :: r => match f x with Some _ => set f x b :: r | None => f :: put r x b end
  end.
Definition declare (s : state) (xs : list string) : state :=
  match s with
  | [] => []
  | f :: r => fold_left (fun f x => set f x true) xs f :: r
  end.
Definition both_frames (f g : frame) : frame :=
  fun x => match f x, g x with Some a, Some b => Some (a && b)%bool | u, None => u | None, v => v end.
Fixpoint both (s t : state) : state :=
  match s, t with
  | f :: s', g :: t' => both_frames f g :: both s' t'
  | _, _ => []
  end.

(** [None]: use of a variable without a value, which Rust rejects. *)
Fixpoint exec1 (c : stmt) (s : state) : option state :=
  let exec := fix exec (l : list stmt) (s : state) : option state :=
    match l with
    | [] => Some s
    | c :: r => match exec1 c s with None => None | Some s' => exec r s' end
    end in
  let block (l : list stmt) (s : state) := option_map (@tl frame) (exec l (empty :: s)) in
  match c with
  | Use x h => if has s x then Some (match h with Moved => put s x false | _ => s end) else None
  | Let xs => Some (declare s xs)
  | Assign x => Some (put s x true)
  | Block a => block a s
  | If_ a b => match block a s, block b s with Some s1, Some s2 => Some (both s1 s2) | _, _ => None end
  | Loop_ a =>
      (* what an iteration does to a variable is to give it a value, to take
         it, or nothing: the second time nothing new happens *)
      match block a s with
      | None => None
      | Some s1 => match block a s1 with None => None | Some s2 => Some (both s (both s1 s2)) end
      end
  end.
Fixpoint exec (l : list stmt) (s : state) : option state :=
  match l with
  | [] => Some s
  | c :: r => match exec1 c s with None => None | Some s' => exec r s' end
  end.

(** Accepted by the borrow checker. *)
Definition accepted (l : list stmt) : Prop := exec l [empty] <> None.

(** [x] is used in [l] (not inside blocks). *)
Definition used (x : string) (l : list stmt) : Prop := exists h, In (Use x h) l.
