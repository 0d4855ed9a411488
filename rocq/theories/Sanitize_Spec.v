(** Specification for C03/C04: what a sanitised name is, independently of the
    scanning loop. *)
From Verif Require Import Util.
Local Open Scope N_scope.

Definition letter_up (c : N) : Prop := 65 <= c <= 90.
Definition letter_low (c : N) : Prop := 97 <= c <= 122.
Definition digit (c : N) : Prop := 48 <= c <= 57.
Definition underscore : N := 95.

(** A legal ASCII Rust identifier, up to keywords and the lone underscore. *)
Definition legal_identifier (s : list N) : Prop :=
  match s with
  | [] => False
  | c :: _ =>
      (letter_up c \/ letter_low c \/ c = underscore) /\
      Forall (fun d => letter_up d \/ letter_low d \/ digit d \/ d = underscore) s
  end.

(** Snake-case normal form: lower-case, no leading digit, no doubled
    underscore, no trailing underscore except for the name "_". *)
Definition no_double (s : list N) : Prop :=
  forall a b, s <> a ++ underscore :: underscore :: b.
Definition snake_normal (s : list N) : Prop :=
  Forall (fun d => letter_low d \/ digit d \/ d = underscore) s /\
  no_double s /\
  (forall c r, s = c :: r -> ~ digit c) /\
  (forall r, s = r ++ [underscore] -> r = []).

(** Word splitting: a word ends at every character that is no ASCII
    alphanumeric and before an upper-case letter that directly follows a
    lower-case one.  Words are rendered in lower case. *)
Definition alnumb (c : N) : bool :=
  ((65 <=? c) && (c <=? 90)) || ((97 <=? c) && (c <=? 122)) || ((48 <=? c) && (c <=? 57)).
Definition lowerb (c : N) : N := if (65 <=? c) && (c <=? 90) then c + 32 else c.
Definition boundary (prev c : N) : bool :=
  (97 <=? prev) && (prev <=? 122) && ((65 <=? c) && (c <=? 90)).

(** [words_in prev cur s]: inside the word [cur], last character [prev]. *)
Fixpoint words_in (prev : N) (cur : list N) (s : list N) {struct s} : list (list N) :=
  match s with
  | [] => [cur]
  | c :: r =>
      if alnumb c then
        if boundary prev c then cur :: words_in c [lowerb c] r
        else words_in c (cur ++ [lowerb c]) r
      else cur :: (fix skip (s : list N) : list (list N) :=
                     match s with
                     | [] => []
                     | c :: r => if alnumb c then words_in c [lowerb c] r else skip r
                     end) r
  end.
Fixpoint words (s : list N) : list (list N) :=
  match s with
  | [] => []
  | c :: r => if alnumb c then words_in c [lowerb c] r else words r
  end.

Fixpoint join (ws : list (list N)) : list N :=
  match ws with
  | [] => []
  | [w] => w
  | w :: r => w ++ underscore :: join r
  end.

(** A leading underscore is kept if the name starts with one, and is produced
    if it starts with two non-alphanumeric characters. *)
Definition leading (s : list N) : list N :=
  match s with
  | c :: r =>
      if c =? underscore then [underscore]
      else if alnumb c then []
      else match r with
           | d :: _ => if alnumb d then [] else [underscore]
           | [] => []
           end
  | [] => []
  end.

(** The complete description of the sanitised name. *)
Definition sanitized (s : list N) : list N :=
  match leading s ++ join (words s) with
  | c :: r => if (48 <=? c) && (c <=? 57) then underscore :: c :: r else c :: r
  | [] => []
  end.

Definition str (s : string) : list N := map N_of_ascii (list_ascii_of_string s).
