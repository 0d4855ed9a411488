(** C45: tensor payloads. *)
From Coq Require Import ZifyBool ZifyNat ZifyN.
From Verif Require Import Util IR_Model ExtData_Model ExtData_Spec Payload_Spec Payload_Model Payload_Proofs.
Open Scope string_scope.
Open Scope list_scope.
Open Scope N_scope.

(** The integer types and booleans. *)
Definition counted (d : dtype) : Prop := d = BoolT \/ is_int d = true.
Lemma counted_numeric d : counted d -> numeric d = true.
Proof. intros [->|H]; [reflexivity|]. unfold numeric. rewrite H. reflexivity. Qed.

(** C45: a tensor message whose payload (raw bytes, typed field or part of an
    external file) has as many elements as its shape says is converted; its
    type is the declared element type and shape, and reading it gives exactly
    the stored integers in order.  Missing from the full claim: payloads of
    another size are not refused (see the theorems _refuted below). *)
Theorem C45_values_partial :
  forall canonicalize checks file_at mmap can_map base t d vs,
  counted d -> well_typed t -> tp_type t = type_code d ->
  addressable d (tp_dims t) -> element_count (tp_dims t) = Z.of_nat (length vs) ->
  (forall p c, file_at p = Some c -> Forall byte c /\ N.of_nat (length c) < 2 ^ 63) ->
  holds file_at (fun loc path => resolve_path canonicalize base loc = inl path) t d vs ->
  exists r td,
    convert_initializer canonicalize checks t (Some base)
    = Done (if (length (tp_dims t) =? 0)%nat then ScalarNative d
            else TensorT (mkTT d (N.of_nat (length (tp_dims t)))
                               (Some (map (fun z => Some (Z.to_N z)) (tp_dims t)))), r) /\
    to_tensor_data checks file_at mmap can_map r = Some td /\
    td_shape td = map Z.to_N (tp_dims t) /\ td_dtype td = d /\
    as_ints td = Some vs.
Proof.
  intros canonicalize checks file_at mmap can_map base t d vs Hd. apply values_ok.
  apply counted_numeric, Hd.
Qed.
Print Assumptions C45_values_partial.

(** C45: read as the importer reads lists of integers and scalars
    ([to_i64_vec], [scalar_i64]), the same integers come out. *)
Theorem C45_reading : forall td d vs,
  td_dtype td = d -> as_ints td = Some vs ->
  (d = I64 \/ d = I32 -> to_i64_vec td = Some vs) /\
  (d = I64 \/ d = I32 \/ d = I8 \/ d = U8 \/ d = U16 ->
     forall z rest, vs = z :: rest -> scalar_i64 td = Done z).
Proof.
  intros td d vs Hd H. split.
  - intros [->| ->]; unfold to_i64_vec; rewrite Hd; exact H.
  - intros C z rest ->. unfold scalar_i64. rewrite Hd, H. destruct C as [->|[->|[->|[->| ->]]]]; reflexivity.
Qed.
Print Assumptions C45_reading.

(** C45: raw bytes are read as consecutive little endian elements and in no
    other way, whatever the shape says. *)
Theorem C45_raw_bytes : forall canonicalize checks file_at mmap can_map base t d,
  is_int d = true -> well_typed t -> tp_type t = type_code d ->
  tp_external t = false -> tp_raw t <> [] ->
  exists ty r td,
    convert_initializer canonicalize checks t base = Done (ty, r) /\
    to_tensor_data checks file_at mmap can_map r = Some td /\
    forall vs, as_ints td = Some vs <-> bytes_hold d (tp_raw t) vs.
Proof.
  intros canonicalize checks file_at mmap can_map base t d Hd W Ht He Hr.
  assert (E : exists ty, convert_initializer canonicalize checks t base
              = Done (ty, mkRef (convert_shape (tp_dims t)) d (Embedded (tp_raw t)))).
  { unfold convert_initializer, lazy_initializer, tensor_data_ref_from_proto.
    rewrite Ht, type_code_ok, He. destruct (tp_raw t); [congruence|]. eexists. reflexivity. }
  destruct E as [ty E]. eexists ty, _, _. split; [exact E|]. split; [reflexivity|].
  intros vs. split.
  - apply (ints_bytes_hold d); [exact Hd|apply W].
  - apply (bytes_hold_ints d); [|apply W]. unfold numeric. rewrite Hd. reflexivity.
Qed.
Print Assumptions C45_raw_bytes.

(** C45: a typed field gives one element per entry, in order; an entry outside
    the range of the element type is reduced modulo the size of the type, and
    a boolean is true exactly if its entry is not zero. *)
Theorem C45_typed_fields : forall canonicalize checks file_at mmap can_map base t d,
  counted d -> well_typed t -> tp_type t = type_code d ->
  tp_external t = false -> tp_raw t = [] ->
  exists ty r td vs,
    convert_initializer canonicalize checks t base = Done (ty, r) /\
    to_tensor_data checks file_at mmap can_map r = Some td /\
    as_ints td = Some vs /\
    Forall2 (fun stored z =>
      if is_int d then representable d z /\
                       ((z - stored) mod 2 ^ Z.of_N (8 * elem_bytes d) = 0)%Z
      else z = (if (stored =? 0)%Z then 0%Z else 1%Z)) (typed_values d t) vs.
Proof.
  intros canonicalize checks file_at mmap can_map base t d Hd W Ht He Hr.
  assert (E : exists ty, convert_initializer canonicalize checks t base
              = Done (ty, mkRef (convert_shape (tp_dims t)) d (Embedded (typed_bytes d t)))).
  { unfold convert_initializer, lazy_initializer, tensor_data_ref_from_proto.
    rewrite Ht, type_code_ok, He, Hr. eexists. reflexivity. }
  destruct E as [ty E]. eexists ty, _, _, _. split; [exact E|]. split; [reflexivity|].
  split; [apply typed_ints; auto; apply counted_numeric, Hd|].
  induction (typed_values d t) as [|z zs IH]; cbn [map]; constructor; auto.
  destruct (is_int d) eqn:Ei.
  - destruct (typed_wraps d z Ei) as [R M]. split; [exact R|].
    rewrite as_unsigned_Z in M. rewrite Zminus_mod, M, Z.sub_diag. apply Zmod_0_l.
  - destruct Hd as [->|Hd]; [|congruence]. cbn. destruct (z =? 0)%Z; reflexivity.
Qed.
Print Assumptions C45_typed_fields.

(** C45: the bit patterns of floating point fields are kept. *)
Theorem C45_float_bits : forall canonicalize checks file_at mmap can_map base t d bits,
  well_typed t -> tp_type t = type_code d -> tp_external t = false -> tp_raw t = [] ->
  d = F32 /\ bits = tp_float t \/ d = F64 /\ bits = tp_double t \/
  (d = F16 \/ d = BF16) /\ tp_int32 t = map Z.of_N bits /\ Forall (fun b => b < 2 ^ 16) bits ->
  exists ty r td,
    convert_initializer canonicalize checks t base = Done (ty, r) /\
    to_tensor_data checks file_at mmap can_map r = Some td /\
    as_bits td = Some bits.
Proof.
  intros canonicalize checks file_at mmap can_map base t d bits W Ht He Hr H.
  assert (E : exists ty, convert_initializer canonicalize checks t base
              = Done (ty, mkRef (convert_shape (tp_dims t)) d (Embedded (typed_bytes d t)))).
  { unfold convert_initializer, lazy_initializer, tensor_data_ref_from_proto.
    rewrite Ht, type_code_ok, He, Hr. eexists. reflexivity. }
  destruct E as [ty E]. eexists ty, _, _. split; [exact E|]. split; [reflexivity|].
  cbn [dr_shape dr_dtype].
  destruct W as (_ & _ & WF & WD & _).
  assert (H16 : Forall (fun b => b < 2 ^ 16) bits -> tp_int32 t = map Z.of_N bits ->
                map (as_unsigned 2) (tp_int32 t) = bits).
  { intros HB ->. rewrite map_map. rewrite <- (map_id bits) at 2. apply map_ext_in. intros b Hb.
    rewrite Forall_forall in HB. specialize (HB b Hb).
    apply N2Z.inj. rewrite as_unsigned_Z. apply Z.mod_small. split; [lia|].
    apply N2Z.inj_lt in HB. exact HB. }
  destruct H as [[-> ->]|[[-> ->]|[[->| ->] [HE HB]]]]; cbn [typed_bytes].
  - apply (vec_bits F32). exact WF.
  - apply (vec_bits F64). exact WD.
  - rewrite H16 by auto. apply (vec_bits F16). exact HB.
  - rewrite H16 by auto. apply (vec_bits BF16). exact HB.
Qed.
Print Assumptions C45_float_bits.

(** C45: element types other than the thirteen supported ones are refused. *)
Theorem C45_unsupported_type : forall canonicalize checks t base,
  (forall d, tp_type t <> type_code d) ->
  convert_initializer canonicalize checks t base = Panic.
Proof. exact unsupported. Qed.
Print Assumptions C45_unsupported_type.

(** C45: if the external location of a tensor is refused, no other data takes
    its place: a converted external tensor refers to the bytes its metadata
    describes, or has no elements at all. *)
Theorem C45_external_source : forall canonicalize checks t base ty r,
  tp_external t = true -> addressable F64 (tp_dims t) -> well_typed t ->
  convert_initializer canonicalize checks t base = Done (ty, r) ->
  (exists dir loc off n sum path l, base = Some dir /\
     entries_describe (tp_entries t) loc off n sum /\
     resolve_path canonicalize dir loc = inl path /\ dr_source r = External path off l /\
     (n = Some l \/ n = None /\ l = Z.to_N (element_count (tp_dims t)) * elem_bytes (dr_dtype r))) \/
  (dr_source r = Embedded [] /\ element_count (tp_dims t) = 0%Z).
Proof. intros canonicalize checks. exact (external_or_empty canonicalize checks (fun _ => None) ""). Qed.
Print Assumptions C45_external_source.

(** C45: the constants made from a list of initializers: there is one per
    initializer, in order, and reading its output yields the data of its own
    initializer. *)
Theorem C45_constants : forall canonicalize checks file_at mmap can_map base ts names ns st cmap,
  length names = length ts -> NoDup names ->
  process_initializers canonicalize checks ts names store_new [] base = Some (ns, st, cmap) ->
  length ns = length ts /\
  forall i t n, nth_error ts i = Some t -> nth_error ns i = Some n ->
    exists ty r out, convert_initializer canonicalize checks t base = Done (ty, r) /\
      noutputs n = [out] /\ aty out = ty /\
      value checks file_at mmap can_map st cmap out
      = match to_tensor_data checks file_at mmap can_map r with
        | Some td => Some (Some td)
        | None => None
        end.
Proof.
  intros canonicalize checks file_at mmap can_map base ts names ns st cmap HL HD E.
  apply process_spec in E; auto; [|intros id d []].
  destruct E as (_ & _ & L & F). split; [exact L|]. intros i t n Ht Hn.
  destruct (nth_error names i) as [name|] eqn:En.
  2:{ apply nth_error_None in En. assert (i < length ts)%nat by (apply nth_error_Some; congruence). lia. }
  destruct (F i t name n Ht En Hn) as (ty & r & id & HC & -> & HS & HG).
  exists ty, r, (mkArg (name ++ "_out1")%string ty VConstant). split; [exact HC|].
  split; [reflexivity|]. split; [reflexivity|].
  unfold value. cbn [asrc aname]. rewrite HS, HG. reflexivity.
Qed.
Print Assumptions C45_constants.

(** ** Examples *)

Definition plain (dims : list Z) (ty : Z) : tensor_proto :=
  mkTP dims ty false [] [] [] [] [] [] [] 0.

(** A 2x2 matrix of 16 bit integers given as raw bytes: 1, -2, 256, -32768. *)
Definition ex_raw : tensor_proto :=
  mkTP [2; 2]%Z 5 false [] [1; 0; 254; 255; 0; 1; 0; 128] [] [] [] [] [] 0.
Example C45_example_raw :
  counted I16 /\ well_typed ex_raw /\ tp_type ex_raw = type_code I16 /\
  addressable I16 (tp_dims ex_raw) /\ element_count (tp_dims ex_raw) = 4%Z /\
  bytes_hold I16 (tp_raw ex_raw) [1; -2; 256; -32768]%Z /\
  exists r, convert_initializer (fun _ => None) true ex_raw None
    = Done (TensorT (mkTT I16 2 (Some [Some 2; Some 2])), r) /\
    exists td, to_tensor_data true (fun _ => None) true true r = Some td /\
    as_ints td = Some [1; -2; 256; -32768]%Z.
Proof.
  split; [right; reflexivity|]. split; [repeat split; repeat constructor; cbn; lia|].
  split; [reflexivity|]. split.
  { split; [repeat constructor; lia|]. intros k.
    destruct k as [|[|[|k]]]; cbn; try lia. }
  split; [reflexivity|]. split.
  { split; [reflexivity|]. intros [|[|[|[|k]]]] z H; cbn in H; try (injection H as <-; split; cbn; [lia|reflexivity]).
    destruct k; discriminate H. }
  eexists. split; [reflexivity|]. eexists. split; [reflexivity|]. vm_compute. reflexivity.
Qed.

(** Three booleans in the typed field. *)
Definition ex_bool : tensor_proto := mkTP [3]%Z 9 false [] [] [] [] [1; 0; 1]%Z [] [] 0.
Example C45_example_typed :
  well_typed ex_bool /\ tp_raw ex_bool = [] /\ typed_values BoolT ex_bool = [1; 0; 1]%Z /\
  Forall (representable BoolT) [1; 0; 1]%Z /\
  holds (fun _ => None) (fun _ _ => False) ex_bool BoolT [1; 0; 1]%Z.
Proof.
  assert (R : Forall (representable BoolT) [1; 0; 1]%Z) by (repeat constructor; cbn; auto).
  split; [repeat split; repeat constructor; cbn; lia|]. split; [reflexivity|]. split; [reflexivity|].
  split; [exact R|]. apply holds_typed; auto.
Qed.

(** Two 32 bit integers at offset 4 of the file weights.bin. *)
Definition ex_ext : tensor_proto :=
  mkTP [2]%Z 6 true [("location", "weights.bin"); ("offset", "4")] [] [] [] [] [] [] 0.
Example C45_example_external :
  let files p := if String.eqb p "/m/weights.bin"
                 then Some [9; 9; 9; 9; 7; 0; 0; 0; 255; 255; 255; 255] else None in
  holds files (fun loc path => resolve_path (fun _ => None) "/m" loc = inl path) ex_ext I32 [7; -1]%Z /\
  exists r, convert_initializer (fun _ => None) true ex_ext (Some "/m")
    = Done (TensorT (mkTT I32 1 (Some [Some 2])), r) /\
    exists td, to_tensor_data true files true true r = Some td /\ as_ints td = Some [7; -1]%Z.
Proof.
  cbn zeta. split.
  - eapply (holds_external _ _ _ _ _ "weights.bin" 4 None None "/m/weights.bin" _ [7; 0; 0; 0; 255; 255; 255; 255]).
    + reflexivity.
    + apply (proj1 (ExtData_Proofs.from_proto_entries_spec _ _ _ _ _)). reflexivity.
    + reflexivity.
    + reflexivity.
    + left. reflexivity.
    + exists [9; 9; 9; 9], []. repeat split.
    + split; [reflexivity|]. intros [|[|k]] z H; cbn in H; try (injection H as <-; split; cbn; [lia|reflexivity]).
      destruct k; discriminate H.
  - eexists. split; [reflexivity|]. eexists. split; [reflexivity|]. vm_compute. reflexivity.
Qed.

Example C45_example_constants :
  exists ns st cmap,
    process_initializers (fun _ => None) true [ex_raw; ex_bool] ["constant1"; "constant2"] store_new [] None
    = Some (ns, st, cmap) /\ length ns = 2%nat.
Proof. eexists _, _, _. split; reflexivity. Qed.

(** ** Where the claim fails *)

(** The payload of [t] has [n] elements of type [d] although the shape asks
    for another number; the conversion and the reading succeed all the same. *)
Definition accepted_with (t : tensor_proto) (files : string -> option (list N)) (base : option string)
    (vs : list Z) : Prop :=
  exists ty r td,
    convert_initializer (fun _ => None) true t base = Done (ty, r) /\
    to_tensor_data true files true true r = Some td /\
    as_ints td = Some vs /\ element_count (tp_dims t) <> Z.of_nat (length vs).

(** C45 is false: raw bytes for one element are accepted for a tensor of three. *)
Theorem C45_raw_size_refuted :
  exists t, well_typed t /\ tp_external t = false /\ tp_dims t = [3]%Z /\
    accepted_with t (fun _ => None) None [5]%Z.
Proof.
  exists (mkTP [3]%Z 6 false [] [5; 0; 0; 0] [] [] [] [] [] 0).
  split; [repeat split; repeat constructor; cbn; lia|]. split; [reflexivity|]. split; [reflexivity|].
  eexists _, _, _. split; [reflexivity|]. split; [reflexivity|]. split; [vm_compute; reflexivity|].
  cbn. discriminate.
Qed.
Print Assumptions C45_raw_size_refuted.

(** C45 is false: a typed field with three entries is accepted for a scalar,
    and an empty one for a tensor of two elements. *)
Theorem C45_typed_size_refuted :
  (exists t, well_typed t /\ tp_dims t = [] /\ accepted_with t (fun _ => None) None [5; 6; 7]%Z) /\
  (exists t, well_typed t /\ tp_dims t = [2]%Z /\ accepted_with t (fun _ => None) None []).
Proof.
  split.
  - exists (mkTP [] 7 false [] [] [] [] [] [5; 6; 7]%Z [] 0).
    split; [repeat split; repeat constructor; cbn; lia|]. split; [reflexivity|].
    eexists _, _, _. split; [reflexivity|]. split; [reflexivity|]. split; [vm_compute; reflexivity|].
    cbn. discriminate.
  - exists (plain [2]%Z 7).
    split; [repeat split; repeat constructor; cbn; lia|]. split; [reflexivity|].
    eexists _, _, _. split; [reflexivity|]. split; [reflexivity|]. split; [vm_compute; reflexivity|].
    cbn. discriminate.
Qed.
Print Assumptions C45_typed_size_refuted.

(** C45 is false: so is an external range of another length. *)
Theorem C45_external_size_refuted :
  exists t files, well_typed t /\ tp_external t = true /\ tp_dims t = [2]%Z /\
    accepted_with t files (Some "/m") [7]%Z.
Proof.
  exists (mkTP [2]%Z 2 true [("location", "w"); ("length", "1")] [] [] [] [] [] [] 0),
         (fun p => if String.eqb p "/m/w" then Some [7; 8] else None).
  split; [repeat split; repeat constructor; cbn; lia|]. split; [reflexivity|]. split; [reflexivity|].
  eexists _, _, _. split; [reflexivity|]. split; [reflexivity|]. split; [vm_compute; reflexivity|].
  cbn. discriminate.
Qed.
Print Assumptions C45_external_size_refuted.

(** C45 is false: a negative dimension is not refused either; it becomes a
    dimension of nearly 2^64. *)
Theorem C45_negative_dim_refuted :
  exists t ty r, well_typed t /\ tp_dims t = [-1]%Z /\
    convert_initializer (fun _ => None) true t None = Done (ty, r) /\
    dr_shape r = [2 ^ 64 - 1].
Proof.
  exists (mkTP [-1]%Z 7 false [] [] [] [] [] [5]%Z [] 0).
  eexists _, _. split; [repeat split; repeat constructor; cbn; lia|]. split; [reflexivity|].
  split; reflexivity.
Qed.
Print Assumptions C45_negative_dim_refuted.
