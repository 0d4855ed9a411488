(** Reading numbers back from Rust code.  Nothing here refers to the
    generator. *)
From Verif Require Import IR_Model Iface_Spec.
Local Open Scope string_scope.
Local Open Scope list_scope.

(** A floating-point number: not a number, infinite, or finite with a sign and
    the shortest decimal notation of its size (which determines it). *)
Inductive rfloat := RNaN | RInf (neg : bool) | RFin (neg : bool) (m : string).
Inductive fty := T32 | T64.

Definition is_digit (c : ascii) : bool := let n := N_of_ascii c in ((48 <=? n) && (n <=? 57))%N%bool.
Definition is_num (c : ascii) : bool :=
  is_digit c || Ascii.eqb c "." || Ascii.eqb c "e" || Ascii.eqb c "+" || Ascii.eqb c "-".
Fixpoint every (p : ascii -> bool) (s : string) : bool :=
  match s with EmptyString => true | String c r => p c && every p r end.
Fixpoint some (p : ascii -> bool) (s : string) : bool :=
  match s with EmptyString => false | String c r => p c || some p r end.
Definition starts_with_digit (s : string) : bool := match s with String c _ => is_digit c | EmptyString => false end.
Definition has_point (s : string) : bool := some (fun c => Ascii.eqb c "." || Ascii.eqb c "e") s.

(** The notations of finite numbers: they begin with a digit and have a point or
    an exponent. *)
Definition notation_ok (f : rfloat) : Prop :=
  match f with RFin _ m => starts_with_digit m = true /\ every is_num m = true /\ has_point m = true | _ => True end.
Definition finite (f : rfloat) : Prop := match f with RFin _ _ => True | _ => False end.

(** A literal is a numeral and a suffix; without a suffix it needs a point or an
    exponent to be a floating-point number. *)
Fixpoint numeral (s : string) : string * string :=
  match s with
  | EmptyString => (EmptyString, EmptyString)
  | String c r => if is_num c then let (a, b) := numeral r in (String c a, b) else (EmptyString, s)
  end.
Definition read_literal (t : token) : option (option fty * string) :=
  if starts_with_digit t then
    let (m, suffix) := numeral t in
    if (suffix =? "") then (if has_point m then Some (None, m) else None)
    else if (suffix =? "f32") || (suffix =? "_f32") then Some (Some T32, m)
    else if (suffix =? "f64") || (suffix =? "_f64") then Some (Some T64, m)
    else None
  else None.

(** A floating-point expression: a literal, a negated literal, or one of the
    constants of the primitive types.  Other names mean nothing. *)
Definition read_float (ts : list token) : option (option fty * rfloat) :=
  match ts with
  | [t] => match read_literal t with Some (ty, m) => Some (ty, RFin false m) | None => None end
  | [a; t] => if (a =? "-") then match read_literal t with Some (ty, m) => Some (ty, RFin true m) | None => None end else None
  | [a; b; c] =>
      let ty := if (a =? "f32") then Some T32 else if (a =? "f64") then Some T64 else None in
      match ty with
      | None => None
      | Some _ =>
          if negb (b =? "::") then None
          else if (c =? "NAN") then Some (ty, RNaN)
          else if (c =? "INFINITY") then Some (ty, RInf false)
          else if (c =? "NEG_INFINITY") then Some (ty, RInf true)
          else None
      end
  | _ => None
  end.

(** Integers, and arrays of them; after the last element a comma is allowed. *)
Definition read_int (ts : list token) : option Z :=
  match ts with
  | [t] => option_map Z.of_N (read_number t)
  | [a; t] => if (a =? "-") then option_map (fun n => (- Z.of_N n)%Z) (read_number t) else None
  | _ => None
  end.
Fixpoint read_items (ts : list token) : option (list Z) :=
  match ts with
  | [] => None
  | t :: r =>
      if (t =? "]") then match r with [] => Some [] | _ => None end
      else if (t =? "-") then
        match r with
        | n :: c :: r2 =>
            if (c =? ",") then match read_int [t; n], read_items r2 with Some z, Some l => Some (z :: l) | _, _ => None end
            else if (c =? "]") then match r2, read_int [t; n] with [], Some z => Some [z] | _, _ => None end
            else None
        | _ => None
        end
      else
        match r with
        | c :: r2 =>
            if (c =? ",") then match read_int [t], read_items r2 with Some z, Some l => Some (z :: l) | _, _ => None end
            else if (c =? "]") then match r2, read_int [t] with [], Some z => Some [z] | _, _ => None end
            else None
        | _ => None
        end
  end.
Definition read_array (ts : list token) : option (list Z) :=
  match ts with t :: r => if (t =? "[") then read_items r else None | [] => None end.

(** The paddings of Burn: none, or numbers at the two sides of each axis; in
    three dimensions one number for both sides. *)
Inductive padding := PNone (dims : nat) | PSides (before after : list N).
Fixpoint read_args (ts : list token) : option (list N) :=
  match ts with
  | t :: c :: r =>
      match read_number t with
      | None => None
      | Some n => if (c =? ")") then match r with [] => Some [n] | _ => None end
                  else if (c =? ",") then option_map (cons n) (read_args r) else None
      end
  | _ => None
  end.
Definition read_padding (ts : list token) : option padding :=
  match ts with
  | ty :: col :: v :: r =>
      let dims := if (ty =? "PaddingConfig1d") then 1 else if (ty =? "PaddingConfig2d") then 2 else if (ty =? "PaddingConfig3d") then 3 else 0 in
      if negb (col =? "::") then None
      else if (v =? "Valid") then match r, dims with [], S _ => Some (PNone dims) | _, _ => None end
      else if (v =? "Explicit") then
        match r with
        | o :: r2 =>
            if (o =? "(") then
              match dims, read_args r2 with
              | 1, Some [l; h] => Some (PSides [l] [h])
              | 2, Some [t; l; b; r] => Some (PSides [t; l] [b; r])
              | 3, Some [d; h; w] => Some (PSides [d; h; w] [d; h; w])
              | _, _ => None
              end
            else None
        | [] => None
        end
      else None
  | _ => None
  end.
