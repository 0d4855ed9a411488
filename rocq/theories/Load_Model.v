(** Model of the output directory and of the code that loads the parameters:
    crates/burn-onnx/src/model_gen.rs and crates/burn-onnx/src/burn/graph.rs. *)
From Verif Require Import Util Files_Spec Files_Model Load_Spec.

(** [PathBuf::push] and [Path::join] of the standard library: a path from the
    root replaces the one it is added to. *)
Definition push (a b : fpath) : fpath :=
  if absolute b then b else FPath (absolute a) (comps a ++ comps b).

(** model_gen.rs:300-311 [get_output_directory]; [None] is a panic.  [env] is
    the variable OUT_DIR. *)
Definition get_output_directory (is_build_script : bool) (env out_dir : option fpath) : option fpath :=
  if is_build_script
  then match env, out_dir with
       | Some o, Some d => Some (push o d)
       | _, _ => None
       end
  else out_dir.

(** [Path::with_extension] on the components (Files_Model). *)
Definition set_ext (p : fpath) (ext : string) : fpath := FPath (absolute p) (with_extension (comps p) ext).

(** graph.rs:276-299 [register_burnpack_file] and 301-350
    [register_burnpack_embed]: the file to load from.  The literal in the code is
    read back as the path that was written; a path that is not UTF-8 panics in
    the code and does not exist here. *)
Definition register (embed : bool) (cwd : path) (fs : files (list N)) (file : fpath) : option loader :=
  if embed
  then match fs (resolve cwd file) with
       | Some b => Some (IncludeBytes file (length b))          (* metadata().len() *)
       | None => None                                            (* expect *)
       end
  else Some (LoadFile file).

(** model_gen.rs:277-366 [run] for one input and graph.rs:48-67
    [with_burnpack]: the file of parameters is written, then the source with
    the loading code.  [code] stands for the rest of the generation. *)
Definition generate_one (embed : bool) (cwd : path) (dir : fpath) (input : path)
    (weights : list N) (code : loader -> list N) (fs : files (list N))
    : option (files (list N) * loader * path) :=
  match file_stem input with
  | None => None
  | Some name =>
      let out := FPath (absolute dir) (join (comps dir) name) in
      let bpk := set_ext (set_ext out "bpk") "bpk" in
      let fs1 := write fs (resolve cwd bpk) weights in
      match register embed cwd fs1 bpk with
      | None => None
      | Some l =>
          let source := resolve cwd (set_ext out "rs") in
          Some (write fs1 source (code l), l, source)
      end
  end.
