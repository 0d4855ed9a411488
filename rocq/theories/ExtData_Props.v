(** C05-C08: property theorems only. *)
From Verif Require Import Util ExtData_Model ExtData_Spec ExtData_Proofs.

(** C05: whatever the file system says, an accepted location denotes a place
    inside the model directory, from every current directory. *)
Theorem C05_resolved_inside_base : forall canonicalize base loc p,
  resolve_path canonicalize base loc = inl p ->
  forall cwd, inside (place cwd base) (place cwd p).
Proof. exact resolve_path_inside. Qed.
Print Assumptions C05_resolved_inside_base.

(** C05: if the file system can resolve links of both paths, the resolved
    path is also below the resolved directory. *)
Theorem C05_canonical_inside_base : forall canonicalize base loc p cb cr,
  resolve_path canonicalize base loc = inl p ->
  canonicalize base = Some cb -> canonicalize p = Some cr ->
  exists rest, components cr = components cb ++ rest.
Proof. exact resolve_path_canonical. Qed.
Print Assumptions C05_canonical_inside_base.

(** C05: harmless locations are not refused. *)
Theorem C05_plain_location_accepted : forall canonicalize base loc,
  contains_nul loc = false -> is_absolute loc = false -> ~ In ".."%string (steps loc) ->
  canonicalize base = None \/ canonicalize (path_join base loc) = None ->
  resolve_path canonicalize base loc = inl (path_join base loc).
Proof. exact resolve_path_accepts. Qed.
Print Assumptions C05_plain_location_accepted.

Example C05_example :
  resolve_path (fun _ => None) "/models" "sub/./weights.bin" = inl "/models/sub/./weights.bin"%string /\
  place ["home"%string] "/models/sub/./weights.bin" = ["weights.bin"; "sub"; "models"]%string /\
  resolve_path (fun _ => None) "/models" "a/../../etc/passwd" = inr ParentRef /\
  resolve_path (fun _ => None) "/models" "/etc/passwd" = inr AbsolutePath.
Proof. repeat split; reflexivity. Qed.

(** C06: what is loaded is the declared byte range. *)
Theorem C06_loaded_is_range : forall mmap checks file can_map off n bytes,
  (off < 2 ^ 64)%N -> (n < 2 ^ 64)%N ->
  load_external_data mmap checks file can_map off n = Loaded bytes ->
  exists content, file = Some content /\
    ((n = 0%N /\ bytes = []) \/ is_range content off n bytes).
Proof. exact load_sound. Qed.
Print Assumptions C06_loaded_is_range.

(** C06: a range inside the file is always loaded. *)
Theorem C06_range_is_loaded : forall mmap checks content can_map off n,
  (off + n <= N.of_nat (length content))%N -> (N.of_nat (length content) < 2 ^ 63)%N ->
  exists bytes, load_external_data mmap checks (Some content) can_map off n = Loaded bytes /\
                is_range content off n bytes.
Proof. exact load_complete. Qed.
Print Assumptions C06_range_is_loaded.

(** C06: memory mapped and plain loading agree, whether or not arithmetic
    overflow is checked (a file has fewer than 2^63 bytes). *)
Theorem C06_modes_agree : forall checks checks' file can_map can_map' mmap mmap' off n,
  (off < 2 ^ 64)%N -> (n < 2 ^ 64)%N ->
  (match file with Some c => N.of_nat (length c) < 2 ^ 63 | None => True end)%N ->
  load_external_data mmap checks file can_map off n =
  load_external_data mmap' checks' file can_map' off n.
Proof. exact load_agree. Qed.
Print Assumptions C06_modes_agree.

Example C06_example :
  load_external_data true false (Some [10; 11; 12; 13; 14]%N) true 1 3 = Loaded [11; 12; 13]%N /\
  load_external_data true true (Some [10; 11; 12; 13; 14]%N) true 3 3 = Panicked.
Proof. split; reflexivity. Qed.

(** C07: the metadata obtained is exactly what the entries say. *)
Theorem C07_entries_last_wins : forall es loc off n sum,
  from_proto_entries es = inl {| location := loc; offset := off; len := n; checksum := sum |} <->
  entries_describe es loc off n sum.
Proof. exact from_proto_entries_spec. Qed.
Print Assumptions C07_entries_last_wins.

(** C07: the location is required. *)
Theorem C07_missing_location : forall es,
  from_proto_entries es = inr MissingLocation <->
  (forall key v, In (key, v) es -> key = "offset"%string \/ key = "length"%string ->
     exists k, denotes v k /\ (k < 2 ^ 64)%N) /\
  ~ exists v, In ("location"%string, v) es.
Proof. exact from_proto_missing. Qed.
Print Assumptions C07_missing_location.

Example C07_example :
  from_proto_entries [("length", "5"); ("location", "a"); ("foo", "x"); ("length", "+17"); ("location", "b")]%string
  = inl {| location := "b"; offset := 0; len := Some 17%N; checksum := None |} /\
  from_proto_entries [("location", "a"); ("offset", "-1")]%string = inr (InvalidOffset "-1").
Proof. split; reflexivity. Qed.

(** C08: every stored tensor can be read back under its id, ids are distinct,
    and other ids resolve to nothing. *)
Theorem C08_store_history : forall (D : Type) (ds : list D) s ids,
  store_all store_new ds = (s, ids) ->
  NoDup ids /\ length ids = length ds /\
  (forall k id d, nth_error ids k = Some id -> nth_error ds k = Some d -> get s id = Some d) /\
  (forall id, ~ In id ids -> get s id = None).
Proof. exact @store_history. Qed.
Print Assumptions C08_store_history.

(** C08: later stores never change what an earlier id resolves to. *)
Theorem C08_store_stable : forall (D : Type) (ds1 ds2 : list D) s1 ids1 s2 ids2,
  store_all store_new ds1 = (s1, ids1) -> store_all s1 ds2 = (s2, ids2) ->
  forall id, In id ids1 -> get s2 id = get s1 id.
Proof. exact @store_stable. Qed.
Print Assumptions C08_store_stable.

Example C08_example :
  exists s, store_all store_new ["w"; "b"; "w"]%string = (s, [0; 1; 2]%N) /\
            get s 1%N = Some "b"%string /\ get s 3%N = None.
Proof. eexists. repeat split. Qed.
