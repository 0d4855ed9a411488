(** Where a path leads, and what a compiled program finds there.  Nothing here
    refers to the generator. *)
From Verif Require Export Files_Spec.

(** A path as it is written: from the root or not, and its components. *)
Record fpath := FPath { absolute : bool; comps : path }.
Definition step (d : path) (c : string) : path :=
  if String.eqb c "." then d else if String.eqb c ".." then removelast d else d ++ [c].
(** The file a path leads to for a process in the working directory [cwd] (no
    symbolic links). *)
Definition resolve (cwd : path) (p : fpath) : path :=
  fold_left step (comps p) (if absolute p then [] else cwd).
(** Rust's [include_bytes!] reads a path that does not begin at the root from
    the directory of the source file it stands in. *)
Definition included (source : path) (p : fpath) : path := resolve (removelast source) p.

(** The two ways to get at parameters: read a file when the program runs, or
    include a file of a given size when it is compiled. *)
Inductive loader := LoadFile (p : fpath) | IncludeBytes (p : fpath) (size : nat).
(** The parameters a program gets.  The array that includes a file has to have
    the size of the file, or the program does not compile. *)
Definition obtains (fs : files (list N)) (source run_cwd : path) (l : loader) : option (list N) :=
  match l with
  | LoadFile p => fs (resolve run_cwd p)
  | IncludeBytes p size =>
      match fs (included source p) with
      | Some b => if Nat.eqb (length b) size then Some b else None
      | None => None
      end
  end.

(** A path without [.] and [..]. *)
Definition plain (p : path) : Prop := Forall (fun c => c <> "."%string /\ c <> ".."%string) p.
