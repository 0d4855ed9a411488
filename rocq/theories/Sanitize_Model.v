(** Model of name sanitisation.  A Rust [&str] is a list of Unicode code
    points ([chars()]). *)
From Verif Require Import Util.
Local Open Scope N_scope.

Definition us : N := 95. (* '_' *)
(* char::is_ascii_uppercase / is_ascii_lowercase / is_ascii_digit / is_ascii_alphanumeric *)
Definition is_up (c : N) : bool := (65 <=? c) && (c <=? 90).
Definition is_low (c : N) : bool := (97 <=? c) && (c <=? 122).
Definition is_dig (c : N) : bool := (48 <=? c) && (c <=? 57).
Definition is_alnum (c : N) : bool := is_up c || is_low c || is_dig c.
Definition to_low (c : N) : N := if is_up c then c + 32 else c.

(** proto_conversion.rs:54-56 loop state; [acc] is [result] reversed. *)
Record sstate := { acc : list N; prev_is_lower : bool; prev_is_underscore : bool }.

(** proto_conversion.rs:58-83 one iteration of the scanning loop. *)
Definition san_step (i : nat) (c : N) (st : sstate) : sstate :=
  if c =? us then
    if negb (prev_is_underscore st) || (i =? 0)%nat
    then {| acc := us :: acc st; prev_is_lower := false; prev_is_underscore := true |}
    else {| acc := acc st; prev_is_lower := false; prev_is_underscore := prev_is_underscore st |}
  else if is_alnum c then
    let a := if is_up c && prev_is_lower st && negb (prev_is_underscore st)
             then us :: acc st else acc st in
    {| acc := to_low c :: a; prev_is_lower := is_low c; prev_is_underscore := false |}
  else
    if negb (prev_is_underscore st) && (0 <? i)%nat
    then {| acc := us :: acc st; prev_is_lower := false; prev_is_underscore := true |}
    else {| acc := acc st; prev_is_lower := false; prev_is_underscore := prev_is_underscore st |}.

Fixpoint san_loop (i : nat) (s : list N) (st : sstate) : sstate :=
  match s with
  | [] => st
  | c :: r => san_loop (S i) r (san_step i c st)
  end.

(** proto_conversion.rs:86-94 trailing underscore removal, on the reversed
    result: stop if one character is left or if all are underscores. *)
Fixpoint strip_trailing (r : list N) : list N :=
  match r with
  | c :: ((_ :: _) as rest) =>
      if c =? us then if forallb (N.eqb us) r then r else strip_trailing rest else r
  | _ => r
  end.

(** proto_conversion.rs:97-99 *)
Definition fix_first (s : list N) : list N :=
  match s with
  | [] => []
  | c :: _ => if is_up c || is_low c || (c =? us) then s else us :: s
  end.

(** proto_conversion.rs:48-102 [sanitize_name] *)
Definition sanitize_name (s : list N) : list N :=
  match s with
  | [] => []
  | _ =>
    let st := san_loop 0 s {| acc := []; prev_is_lower := false; prev_is_underscore := false |} in
    fix_first (rev (strip_trailing (acc st)))
  end.
