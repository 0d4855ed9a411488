(** Model of external tensor data: metadata parsing, path resolution, byte
    range loading, and of the tensor store. *)
From Verif Require Import Util.

(** ** Metadata *)

(** [str::parse::<u64>]: optional leading '+', at least one digit, only
    digits, value below 2^64; [None] is the parse error. *)
Fixpoint parse_digits (s : string) (v : N) : option N :=
  match s with
  | EmptyString => Some v
  | String c r =>
      if is_digit c then
        let v' := (10 * v + (N_of_ascii c - 48))%N in
        if (v' <? 2 ^ 64)%N then parse_digits r v' else None
      else None
  end.
Definition parse_u64 (s : string) : option N :=
  match s with
  | EmptyString => None
  | String c r =>
      if Ascii.eqb c "+"%char then
        match r with EmptyString => None | _ => parse_digits r 0 end
      else parse_digits s 0
  end.

Inductive ext_error := MissingLocation | InvalidOffset (v : string) | InvalidLength (v : string).

(** external_data.rs:36-47 [ExternalDataInfo] *)
Record ext_info := { location : string; offset : N; len : option N; checksum : option string }.

(** external_data.rs:61-64 local variables of the loop *)
Record ext_state := { x_loc : option string; x_off : N; x_len : option N; x_sum : option string }.
Definition ext_init : ext_state := {| x_loc := None; x_off := 0%N; x_len := None; x_sum := None |}.

(** external_data.rs:66-92 loop over the entries *)
Fixpoint ext_loop (es : list (string * string)) (st : ext_state) : ext_state + ext_error :=
  match es with
  | [] => inl st
  | (key, value) :: r =>
      if String.eqb key "location" then
        ext_loop r {| x_loc := Some value; x_off := x_off st; x_len := x_len st; x_sum := x_sum st |}
      else if String.eqb key "offset" then
        match parse_u64 value with
        | None => inr (InvalidOffset value)
        | Some v => ext_loop r {| x_loc := x_loc st; x_off := v; x_len := x_len st; x_sum := x_sum st |}
        end
      else if String.eqb key "length" then
        match parse_u64 value with
        | None => inr (InvalidLength value)
        | Some v => ext_loop r {| x_loc := x_loc st; x_off := x_off st; x_len := Some v; x_sum := x_sum st |}
        end
      else if String.eqb key "checksum" then
        ext_loop r {| x_loc := x_loc st; x_off := x_off st; x_len := x_len st; x_sum := Some value |}
      else ext_loop r st
  end.

(** external_data.rs:58-102 [from_proto_entries] *)
Definition from_proto_entries (es : list (string * string)) : ext_info + ext_error :=
  match ext_loop es ext_init with
  | inr e => inr e
  | inl st =>
      match x_loc st with
      | None => inr MissingLocation
      | Some l => inl {| location := l; offset := x_off st; len := x_len st; checksum := x_sum st |}
      end
  end.

(** ** Paths (Unix flavour of std::path) *)

Definition slash : ascii := "/"%char.
Inductive component := RootDir | CurDir | ParentDir | Normal (s : string).

(** Split at every '/', keeping empty pieces. *)
Fixpoint split_slash (s : string) : list string :=
  match s with
  | EmptyString => [EmptyString]
  | String c r =>
      if Ascii.eqb c slash then EmptyString :: split_slash r
      else match split_slash r with
           | [] => [String c EmptyString]
           | p :: ps => String c p :: ps
           end
  end.

Definition is_absolute (p : string) : bool :=
  match p with String c _ => Ascii.eqb c slash | _ => false end.

(** std [Path::components] on Unix: a leading '/' gives RootDir, repeated
    separators and '.' pieces vanish, except a leading '.' of a relative path. *)
Definition piece_component (first : bool) (p : string) : list component :=
  if String.eqb p "" then []
  else if String.eqb p "." then (if first then [CurDir] else [])
  else if String.eqb p ".." then [ParentDir]
  else [Normal p].
Definition components (p : string) : list component :=
  match split_slash p with
  | [] => []
  | q :: qs =>
      (if is_absolute p then [RootDir] else piece_component true q) ++
      flat_map (piece_component false) qs
  end.

Fixpoint last_char (s : string) : option ascii :=
  match s with
  | EmptyString => None
  | String c EmptyString => Some c
  | String _ r => last_char r
  end.

(** std [Path::join] on Unix. *)
Definition path_join (base p : string) : string :=
  if is_absolute p then p
  else match last_char base with
       | None => p
       | Some c => if Ascii.eqb c slash then (base ++ p)%string else (base ++ "/" ++ p)%string
       end.

(** [Path::starts_with]: component-wise prefix. *)
Definition component_eqb (a b : component) : bool :=
  match a, b with
  | RootDir, RootDir | CurDir, CurDir | ParentDir, ParentDir => true
  | Normal x, Normal y => String.eqb x y
  | _, _ => false
  end.
Fixpoint prefixb (a b : list component) : bool :=
  match a, b with
  | [], _ => true
  | x :: a', y :: b' => component_eqb x y && prefixb a' b'
  | _ :: _, [] => false
  end.
Definition path_starts_with (p base : string) : bool := prefixb (components base) (components p).

Fixpoint contains_nul (s : string) : bool :=
  match s with
  | EmptyString => false
  | String c r => Ascii.eqb c Ascii.zero || contains_nul r
  end.

Inductive path_error := NulByte | AbsolutePath | ParentRef | Escapes.

(** external_data.rs:124-169 [resolve_path]; [canonicalize] is the operating
    system's answer ([None]: error), an arbitrary oracle. *)
Definition resolve_path (canonicalize : string -> option string) (base loc : string) : string + path_error :=
  if contains_nul loc then inr NulByte
  else if is_absolute loc then inr AbsolutePath
  else if existsb (fun c => match c with ParentDir => true | _ => false end) (components loc) then inr ParentRef
  else
    let resolved := path_join base loc in
    match canonicalize base, canonicalize resolved with
    | Some cb, Some cr => if path_starts_with cr cb then inl resolved else inr Escapes
    | _, _ => inl resolved
    end.

(** ** Byte ranges *)

Inductive load_result := Loaded (bytes : list N) | Panicked.

(** tensor_store.rs:138-164 [load_external_mmap].  [file = None]: cannot be
    opened; [can_map]: whether the OS mmap succeeds.  [None] is an io::Error.
    [start + length] is usize arithmetic: [overflow_panics] is true in builds
    with overflow checks; otherwise the sum wraps and slicing with start > end
    panics. *)
Definition load_external_mmap (overflow_panics : bool) (file : option (list N)) (can_map : bool)
    (off length_ : N) : option load_result :=
  match file with
  | None => None
  | Some content =>
      if negb can_map then None else
      let size := N.of_nat (length content) in
      if (overflow_panics && (2 ^ 64 <=? off + length_)%N)%bool then Some Panicked else
      let end_ := ((off + length_) mod 2 ^ 64)%N in
      if (size <? end_)%N then None
      else if (end_ <? off)%N then Some Panicked (* slice index starts past its end *)
      else Some (Loaded (firstn (N.to_nat length_) (skipn (N.to_nat off) content)))
  end.

(** tensor_store.rs:167-196 [load_external_read]: open, seek, read_exact; each
    failure panics.  Seeking beyond i64::MAX fails; allocating more than
    isize::MAX bytes panics; [read_exact] fails unless enough bytes remain
    (zero bytes always suffice, also after seeking past the end). *)
Definition load_external_read (file : option (list N)) (off length_ : N) : load_result :=
  match file with
  | None => Panicked
  | Some content =>
      if (2 ^ 63 <=? off)%N then Panicked
      else if (2 ^ 63 <=? length_)%N then Panicked
      else if (N.of_nat (length content) - off <? length_)%N then Panicked
      else Loaded (firstn (N.to_nat length_) (skipn (N.to_nat off) content))
  end.

(** tensor_store.rs:119-134 [load_external_data]; [mmap] is the cargo feature. *)
Definition load_external_data (mmap overflow_panics : bool) (file : option (list N)) (can_map : bool)
    (off length_ : N) : load_result :=
  if mmap then
    match load_external_mmap overflow_panics file can_map off length_ with
    | Some r => r
    | None => load_external_read file off length_
    end
  else load_external_read file off length_.

(** ** Tensor store: tensor_store.rs:221-256.  The HashMap is an association
    list with the newest entry first; [D] is [TensorDataRef]. *)
Section Store.
  Context {D : Type}.
  Record tensor_store := { data : list (N * D); next_id : N }.
  Definition store_new : tensor_store := {| data := []; next_id := 0%N |}.
  (** tensor_store.rs:238-243 *)
  Definition store (s : tensor_store) (d : D) : tensor_store * N :=
    ({| data := (next_id s, d) :: data s; next_id := (next_id s + 1)%N |}, next_id s).
  (** tensor_store.rs:248-250 *)
  Fixpoint assoc (l : list (N * D)) (id : N) : option D :=
    match l with
    | [] => None
    | (k, d) :: r => if (k =? id)%N then Some d else assoc r id
    end.
  Definition get (s : tensor_store) (id : N) : option D := assoc (data s) id.
  (** A history of [store] calls with the ids they returned. *)
  Fixpoint store_all (s : tensor_store) (ds : list D) : tensor_store * list N :=
    match ds with
    | [] => (s, [])
    | d :: r => let '(s1, id) := store s d in
                let '(s2, ids) := store_all s1 r in (s2, id :: ids)
    end.
End Store.
Arguments tensor_store D : clear implicits.
