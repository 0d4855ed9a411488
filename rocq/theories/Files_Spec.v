(** Files and file names.  A path is the list of its components, as
    [std::path::Path::components] gives them; two paths are the same file when
    the lists are equal (no symbolic links, no case folding). *)
From Verif Require Export Util.

Definition path := list string.
Definition path_dec : forall p q : path, {p = q} + {p <> q} := list_eq_dec string_dec.

Section FS.
  Variable bytes : Type.
  Definition files := path -> option bytes.
  Definition write (f : files) (p : path) (b : bytes) : files := fun q => if path_dec p q then Some b else f q.
End FS.
Arguments write {bytes}.

(** A base name: no dot, except perhaps the first character of a hidden file. *)
Definition dotless (s : string) : bool := string_forall (fun c => negb (Ascii.eqb c ".")) s.
Definition base_name (s : string) : Prop :=
  exists r, (s = r \/ s = ("." ++ r)%string) /\ r <> EmptyString /\ dotless r = true.
(** A file whose name is a base name, alone or followed by an extension. *)
Definition named (p : path) (base : string) : Prop :=
  base_name base /\
  exists dir, p = dir ++ [base] \/ exists ext, p = dir ++ [(base ++ "." ++ ext)%string] /\ dotless ext = true.
(** The file with base name [b] and extension [ext] in directory [d]. *)
Definition in_dir (d : path) (b ext : string) : path := d ++ [(b ++ "." ++ ext)%string].
