(** Model of the file handling of crates/burn-onnx/src/model_gen.rs. *)
From Verif Require Import Util Files_Spec.

(** ** [std::path] (the parts used) *)
(** The position of the last dot, from the right ([rsplit_file_at_dot] of the
    standard library): the stem and the extension of a file name. *)
Fixpoint last_dot (s : string) : option (string * string) :=
  match s with
  | EmptyString => None
  | String c r =>
      match last_dot r with
      | Some (a, b) => Some (String c a, b)
      | None => if Ascii.eqb c "." then Some (EmptyString, r) else None
      end
  end.
Definition stem_of (name : string) : string :=
  if String.eqb name ".." then name
  else match last_dot name with
       | None => name
       | Some (a, _) => if String.eqb a "" then name else a
       end.
(** [Path::file_name]: the last component, unless it is [..]. *)
Fixpoint last_comp (p : path) : option string :=
  match p with
  | [] => None
  | [x] => if String.eqb x ".." then None else Some x
  | _ :: r => last_comp r
  end.
Definition file_stem (p : path) : option string := option_map stem_of (last_comp p).
(** [Path::join] with a file stem: [.] is no component of the result. *)
Definition join (d : path) (name : string) : path := if String.eqb name "." then d else d ++ [name].
(** [Path::with_extension]. *)
Fixpoint with_extension (p : path) (ext : string) : path :=
  match p with
  | [] => []
  | [x] => if String.eqb x ".." then [x] else [(stem_of x ++ "." ++ ext)%string]
  | x :: r => x :: with_extension r ext
  end.

(** ** model_gen.rs *)
Section Gen.
  Variable bytes : Type.
  (** Parsing and code generation: the source code and the weights for the
      content of a model file, given also the paths that are spliced into the
      code (model_gen.rs:328, 363), or a panic. *)
  Variable generate : path -> path -> bytes -> option (bytes * bytes).
  (** The debug dump of the parsed graph. *)
  Variable dump : bytes -> bytes.

  (** model_gen.rs:310-341 [generate_model] and 352-366; graph.rs:49-66.
      A write to a directory fails; this is not modelled. *)
  Definition generate_model (development : bool) (input out : path) (f : files bytes) : option (files bytes) :=
    match f input with
    | None => None                                               (* "Failed to parse ONNX file" *)
    | Some content =>
        let f1 := if development then write f (with_extension out "onnx.txt") (dump content) else f in
        let bpk := with_extension (with_extension out "bpk") "bpk" in
        match generate input bpk content with
        | None => None
        | Some (code, weights) => Some (write (write f1 bpk weights) (with_extension out "rs") code)
        end
    end.

  (** model_gen.rs:273-294 [run]. *)
  Fixpoint run (development : bool) (dir : path) (inputs : list path) (f : files bytes) : option (files bytes) :=
    match inputs with
    | [] => Some f
    | i :: r =>
        match file_stem i with
        | None => None                                           (* unwrap *)
        | Some name =>
            match generate_model development i (join dir name) f with
            | None => None
            | Some f' => run development dir r f'
            end
        end
    end.
End Gen.
