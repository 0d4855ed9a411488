(** Specification for C05-C08. *)
From Verif Require Import Util.

(** ** Decimal numbers: [denotes s n] iff [s] is a non-empty digit string with
    value [n], optionally preceded by a plus sign. *)
Fixpoint digits_value (s : string) : option N :=
  match s with
  | EmptyString => Some 0%N
  | String c r =>
      let d := N_of_ascii c in
      if ((48 <=? d) && (d <=? 57))%N then
        match digits_value r with
        | Some v => Some ((d - 48) * 10 ^ N.of_nat (String.length r) + v)%N
        | None => None
        end
      else None
  end.
Definition denotes (s : string) (n : N) : Prop :=
  exists ds, ds <> EmptyString /\ (s = ds \/ s = String "+" ds) /\ digits_value ds = Some n.

(** The value of the last entry with the given key, if any. *)
Definition last_entry (es : list (string * string)) (key value : string) : Prop :=
  exists before after, es = before ++ (key, value) :: after /\ ~ exists v, In (key, v) after.

(** ** Paths: a path names a sequence of steps from a starting directory. *)
Fixpoint steps (s : string) : list string :=   (* text between slashes *)
  match s with
  | EmptyString => [EmptyString]
  | String c r =>
      if Ascii.eqb c "/" then EmptyString :: steps r
      else match steps r with [] => [String c EmptyString] | p :: ps => String c p :: ps end
  end.
(** A directory is the list of its names from the root, innermost first.  The
    empty step and "." stay, ".." goes up, anything else goes down. *)
Definition walk_step (dir : list string) (st : string) : list string :=
  if String.eqb st "" then dir
  else if String.eqb st "." then dir
  else if String.eqb st ".." then tl dir
  else st :: dir.
(** The (lexical) place a path text denotes from the current directory. *)
Definition place (cwd : list string) (p : string) : list string :=
  let start := match p with String c _ => if Ascii.eqb c "/" then [] else cwd | _ => cwd end in
  fold_left walk_step (steps p) start.
(** [sub] lies in the directory [dir] or below it. *)
Definition inside (dir sub : list string) : Prop := exists below, sub = below ++ dir.

(** ** Byte range [off, off+n) of a file *)
Definition is_range (content : list N) (off n : N) (bytes : list N) : Prop :=
  exists before after, content = before ++ bytes ++ after /\
    N.of_nat (length before) = off /\ N.of_nat (length bytes) = n.

(** ** What the metadata entries say. [Descr] is location, offset, length, checksum. *)
Definition entries_describe (es : list (string * string))
    (loc : string) (off : N) (n : option N) (sum : option string) : Prop :=
  (forall key v, In (key, v) es -> key = "offset"%string \/ key = "length"%string ->
     exists k, denotes v k /\ (k < 2 ^ 64)%N) /\
  last_entry es "location" loc /\
  ((exists v, last_entry es "offset" v /\ denotes v off) \/
   ((~ exists v, In ("offset"%string, v) es) /\ off = 0%N)) /\
  ((exists v k, last_entry es "length" v /\ denotes v k /\ n = Some k) \/
   ((~ exists v, In ("length"%string, v) es) /\ n = None)) /\
  ((exists v, last_entry es "checksum" v /\ sum = Some v) \/
   ((~ exists v, In ("checksum"%string, v) es) /\ sum = None)).
