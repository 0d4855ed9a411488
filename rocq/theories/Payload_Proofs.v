From Coq Require Import ZifyBool ZifyNat ZifyN.
From Verif Require Import Util IR_Model ExtData_Model ExtData_Spec ExtData_Proofs Payload_Spec Payload_Model.
Open Scope N_scope.
Open Scope list_scope.

Lemma dsize_elem d : dsize d = elem_bytes d.
Proof. destruct d; reflexivity. Qed.

Lemma elem_bytes_pos d : 0 < elem_bytes d.
Proof. destruct d; cbn; lia. Qed.

Lemma type_code_ok d : element_type_from_proto (type_code d) = Some d.
Proof. destruct d; reflexivity. Qed.

Lemma type_code_only c d : element_type_from_proto c = Some d -> c = type_code d.
Proof.
  unfold element_type_from_proto.
  destruct c as [|p|p]; [discriminate| |discriminate].
  repeat (destruct p as [p|p|]; try discriminate; try (intros [= <-]; reflexivity)).
Qed.

(** Bytes *)
Lemma from_le_spec bs : forall acc sc, from_le bs acc sc = acc + sc * little_endian bs.
Proof.
  induction bs as [|b r IH]; cbn [from_le little_endian]; intros; [lia|]. rewrite IH. ring.
Qed.
Lemma from_le_0 bs : from_le bs 0 1 = little_endian bs.
Proof. rewrite from_le_spec. lia. Qed.

Lemma to_le_length n : forall x, length (to_le n x) = n.
Proof. induction n; cbn; intros; auto. Qed.
Lemma to_le_byte n : forall x, Forall byte (to_le n x).
Proof.
  induction n; cbn; intros; constructor; auto. unfold byte. apply N.mod_lt. lia.
Qed.
Lemma le_to_le n : forall x, x < 256 ^ N.of_nat n -> little_endian (to_le n x) = x.
Proof.
  induction n; cbn [to_le little_endian]; intros x H.
  - cbn in H. lia.
  - rewrite IHn.
    + pose proof (N.div_mod x 256). lia.
    + rewrite Nnat.Nat2N.inj_succ, N.pow_succ_r' in H.
      apply N.div_lt_upper_bound; lia.
Qed.

Lemma little_endian_bound bs : Forall byte bs -> little_endian bs < 256 ^ N.of_nat (length bs).
Proof.
  induction 1 as [|b r Hb Hr IH]; cbn [little_endian length].
  - cbn. lia.
  - rewrite Nnat.Nat2N.inj_succ, N.pow_succ_r'. unfold byte in Hb. lia.
Qed.

Lemma pow256 w : 256 ^ w = 2 ^ (8 * w).
Proof. rewrite N.pow_mul_r. reflexivity. Qed.

(** Chunks *)
Lemma chunks_app w xs : forall (ls : list (list N)), Forall (fun l => length l = w) ls ->
  chunks (length ls) w (concat ls ++ xs) = ls.
Proof.
  induction ls as [|l r IH]; cbn [length chunks concat]; intros H; [reflexivity|].
  inversion H; subst. rewrite <- app_assoc.
  rewrite firstn_app, firstn_all, skipn_app, skipn_all, Nat.sub_diag. cbn.
  rewrite app_nil_r. f_equal. apply IH; auto.
Qed.

Lemma skipn_add {A} (a b : nat) : forall l : list A, skipn (a + b) l = skipn b (skipn a l).
Proof.
  induction a; intros l; [reflexivity|].
  destruct l; cbn; [destruct b; reflexivity | apply IHa].
Qed.

Lemma chunks_nth w : forall n bs k, (k < n)%nat ->
  nth_error (chunks n w bs) k = Some (firstn w (skipn (k * w) bs)).
Proof.
  induction n; intros bs k H; [lia|].
  destruct k; cbn [chunks nth_error].
  - reflexivity.
  - rewrite IHn by lia. cbn [Nat.mul]. rewrite skipn_add. reflexivity.
Qed.
Lemma chunks_length w : forall n bs, length (chunks n w bs) = n.
Proof. induction n; cbn; intros; auto. Qed.

(** Two's complement *)
Definition numeric (d : dtype) : bool := is_int d || match d with BoolT => true | _ => false end.

Lemma int_of_bits_spec d b : is_int d = true -> b < 2 ^ (8 * elem_bytes d) ->
  forall z, pattern_of d b z <-> z = int_of_bits d b.
Proof.
  intros Hi Hb z. unfold pattern_of, representable, int_of_bits.
  change (dsize d) with (elem_bytes d).
  assert (Hp : (2 ^ Z.of_N (8 * elem_bytes d) = 2 * 2 ^ (Z.of_N (8 * elem_bytes d) - 1))%Z).
  { rewrite <- Z.pow_succ_r by (destruct d; cbn; lia). f_equal. lia. }
  assert (Hq : (0 < 2 ^ (Z.of_N (8 * elem_bytes d) - 1))%Z).
  { apply Z.pow_pos_nonneg; [lia|]. destruct d; cbn; lia. }
  assert (Hb' : (Z.of_N b < 2 ^ Z.of_N (8 * elem_bytes d))%Z).
  { apply N2Z.inj_lt in Hb. rewrite N2Z.inj_pow in Hb. exact Hb. }
  assert (Hh : (2 ^ Z.of_N (8 * elem_bytes d) / 2 = 2 ^ (Z.of_N (8 * elem_bytes d) - 1))%Z).
  { rewrite Hp, Z.mul_comm, Z.div_mul; lia. }
  rewrite Hh.
  set (h := (2 ^ (Z.of_N (8 * elem_bytes d) - 1))%Z) in *.
  set (f := (2 ^ Z.of_N (8 * elem_bytes d))%Z) in *.
  clearbody h f. clear Hh.
  assert (S : is_signed d = true \/ is_signed d = false /\ d <> BoolT).
  { destruct d; cbn in *; try discriminate; auto; right; split; congruence. }
  destruct S as [S|[S NB]]; rewrite S.
  - transitivity (z = if (Z.of_N b <? h)%Z then Z.of_N b else (Z.of_N b - f)%Z).
    2:{ destruct d; try discriminate S; reflexivity. }
    destruct (Z.ltb_spec (Z.of_N b) h); split.
    + intros [R M]. destruct (Z_lt_ge_dec z 0).
        rewrite <- (Z.mod_unique z f (-1) (z + f)%Z) in M by lia. lia.
      * rewrite Z.mod_small in M by lia. lia.
    + intros ->. split; [lia|]. apply Z.mod_small. lia.
    + intros [R M]. destruct (Z_lt_ge_dec z 0).
      * rewrite <- (Z.mod_unique z f (-1) (z + f)%Z) in M by lia. lia.
      * rewrite Z.mod_small in M by lia. lia.
    + intros ->. split; [lia|].
      symmetry. apply (Z.mod_unique _ f (-1)); lia.
  - transitivity (z = Z.of_N b).
    2:{ destruct d; try discriminate S; try congruence; reflexivity. }
    assert (E : (match d with BoolT => z = 0%Z \/ z = 1%Z | _ => (0 <= z < f)%Z end) = (0 <= z < f)%Z)
      by (destruct d; try congruence; reflexivity).
    rewrite E. split.
    + intros [R M]. rewrite Z.mod_small in M by lia. lia.
    + intros ->. split; [lia|]. apply Z.mod_small. lia.
Qed.

Lemma pattern_int d b z : numeric d = true -> b < 2 ^ (8 * elem_bytes d) ->
  pattern_of d b z -> z = int_of_bits d b.
Proof.
  intros Hn Hb H. unfold numeric in Hn. apply Bool.orb_true_iff in Hn as [Hi|Hi].
  - apply int_of_bits_spec; auto.
  - destruct d; try discriminate Hi. destruct H as [[->| ->] M]; cbn in *; lia.
Qed.

Lemma nth_ext_opt {A} : forall l m : list A, (forall k, nth_error l k = nth_error m k) -> l = m.
Proof.
  induction l as [|a l IH]; intros [|b m] H; auto.
  - specialize (H O). discriminate H.
  - specialize (H O). discriminate H.
  - f_equal.
    + specialize (H O). injection H as H. exact H.
    + apply IH. intro k. exact (H (S k)).
Qed.

Lemma piece_bound d (bs : list N) k : Forall byte bs ->
  little_endian (firstn (N.to_nat (elem_bytes d)) (skipn k bs)) < 2 ^ (8 * elem_bytes d).
Proof.
  intros H. rewrite <- pow256.
  eapply N.lt_le_trans; [apply little_endian_bound|].
  - apply Forall_forall. intros x Hx. rewrite Forall_forall in H. apply H.
    rewrite <- (firstn_skipn k bs). apply in_or_app. right.
    rewrite <- (firstn_skipn (N.to_nat (elem_bytes d)) (skipn k bs)). apply in_or_app. left. exact Hx.
  - apply N.pow_le_mono_r; [lia|]. pose proof (firstn_le_length (N.to_nat (elem_bytes d)) (skipn k bs)). lia.
Qed.

Lemma bytes_hold_ints d shape bs vs : numeric d = true -> Forall byte bs ->
  bytes_hold d bs vs -> as_ints (mkTD shape d bs) = Some vs.
Proof.
  intros Hd Hb [HL HV]. unfold as_ints, as_bits. cbn [td_dtype td_bytes].
  rewrite dsize_elem, HL.
  pose proof (elem_bytes_pos d) as Hp.
  rewrite N.mul_comm, N.mod_mul by lia. cbn [N.eqb]. rewrite N.div_mul by lia.
  f_equal. apply nth_ext_opt. intros k.
  rewrite !nth_error_map.
  destruct (Nat.lt_ge_cases k (length vs)) as [Hk|Hk].
  - rewrite chunks_nth by lia. cbn [option_map].
    destruct (nth_error vs k) as [z|] eqn:E; [|apply nth_error_None in E; lia].
    f_equal. symmetry. rewrite from_le_0. apply pattern_int; auto.
    apply piece_bound; auto.
  - rewrite (proj2 (nth_error_None vs k)) by lia.
    rewrite (proj2 (nth_error_None (chunks _ _ _) k)) by (rewrite chunks_length; lia). reflexivity.
Qed.

Lemma ints_bytes_hold d shape bs vs : is_int d = true -> Forall byte bs ->
  as_ints (mkTD shape d bs) = Some vs -> bytes_hold d bs vs.
Proof.
  intros Hd Hb. unfold as_ints, as_bits. cbn [td_dtype td_bytes]. rewrite dsize_elem.
  pose proof (elem_bytes_pos d) as Hp.
  destruct (N.eqb_spec (N.of_nat (length bs) mod elem_bytes d) 0) as [E|E]; [|discriminate].
  intros H. injection H as H. subst vs.
  assert (HL : length (map (int_of_bits d) (map (fun c => from_le c 0 1)
     (chunks (N.to_nat (N.of_nat (length bs) / elem_bytes d)) (N.to_nat (elem_bytes d)) bs)))
     = N.to_nat (N.of_nat (length bs) / elem_bytes d)) by (rewrite !map_length; apply chunks_length).
  split.
  - rewrite HL. pose proof (N.div_mod (N.of_nat (length bs)) (elem_bytes d)). lia.
  - intros k z Hk.
    assert (Hlt : (k < N.to_nat (N.of_nat (length bs) / elem_bytes d))%nat).
    { rewrite <- HL. apply nth_error_Some. congruence. }
    rewrite !nth_error_map, chunks_nth in Hk by auto. cbn [option_map] in Hk.
    injection Hk as Hk. subst z. rewrite from_le_0.
    apply int_of_bits_spec; auto. apply piece_bound; auto.
Qed.

(** Typed fields *)
Lemma vec_to_bytes_concat w xs : vec_to_bytes w xs = concat (map (to_le (N.to_nat w)) xs).
Proof. unfold vec_to_bytes. apply flat_map_concat_map. Qed.

Lemma vec_to_bytes_length w xs : N.of_nat (length (vec_to_bytes w xs)) = w * N.of_nat (length xs).
Proof.
  unfold vec_to_bytes. induction xs as [|x r IH]; cbn [flat_map length]; [lia|].
  rewrite app_length, to_le_length. lia.
Qed.

Lemma vec_bits d shape xs : Forall (fun x => x < 2 ^ (8 * elem_bytes d)) xs ->
  as_bits (mkTD shape d (vec_to_bytes (elem_bytes d) xs)) = Some xs.
Proof.
  intros H. unfold as_bits. cbn [td_dtype td_bytes]. change (dsize d) with (elem_bytes d). rewrite vec_to_bytes_length.
  pose proof (elem_bytes_pos d) as Hp.
  rewrite N.mul_comm, N.mod_mul by lia. cbn [N.eqb]. rewrite N.div_mul by lia.
  f_equal. rewrite Nnat.Nat2N.id, vec_to_bytes_concat.
  rewrite <- (map_length (to_le (N.to_nat (elem_bytes d))) xs).
  rewrite <- (app_nil_r (concat _)).
  rewrite chunks_app.
  - rewrite map_map. rewrite <- (map_id xs) at 2. apply map_ext_in. intros x Hx.
    rewrite from_le_0. apply le_to_le. rewrite N2Nat.id, pow256.
    rewrite Forall_forall in H. auto.
  - apply Forall_forall. intros l Hl. apply in_map_iff in Hl as [x [<- _]]. apply to_le_length.
Qed.

Lemma as_unsigned_bound d z : as_unsigned (elem_bytes d) z < 2 ^ (8 * elem_bytes d).
Proof.
  unfold as_unsigned. apply N2Z.inj_lt. rewrite N2Z.inj_pow.
  rewrite Z2N.id; [apply Z.mod_pos_bound|apply Z.mod_pos_bound]; apply Z.pow_pos_nonneg; lia.
Qed.

Lemma as_unsigned_Z b z : Z.of_N (as_unsigned b z) = (z mod 2 ^ Z.of_N (8 * b))%Z.
Proof.
  unfold as_unsigned. rewrite Z2N.id; auto. apply Z.mod_pos_bound. apply Z.pow_pos_nonneg; lia.
Qed.

(** the bits of one typed element *)
Definition elem_bits (d : dtype) (z : Z) : N :=
  match d with BoolT => if (z =? 0)%Z then 0 else 1 | _ => as_unsigned (elem_bytes d) z end.

Lemma le1 (xs : list N) : Forall (fun x => x < 256) xs -> vec_to_bytes 1 xs = xs.
Proof.
  induction 1 as [|x r Hx Hr IH]; [reflexivity|].
  unfold vec_to_bytes in *. cbn [flat_map]. rewrite IH. change (to_le (N.to_nat 1) x) with [x mod 256]. cbn [app]. f_equal. apply N.mod_small. exact Hx.
Qed.

Lemma typed_bytes_eq d t : numeric d = true -> well_typed t ->
  typed_bytes d t = vec_to_bytes (elem_bytes d) (map (elem_bits d) (typed_values d t)).
Proof.
  intros Hd W. destruct W as (_ & _ & _ & _ & _ & _ & WU).
  destruct d; try discriminate Hd; cbn [typed_bytes elem_bytes elem_bits typed_values]; try reflexivity.
  - (* U64 *) rewrite map_map. f_equal. rewrite <- (map_id (tp_uint64 t)) at 1. apply map_ext_in.
    intros x Hx. rewrite Forall_forall in WU. specialize (WU x Hx).
    apply N2Z.inj. change (elem_bits U64 (Z.of_N x)) with (as_unsigned 8 (Z.of_N x)).
    rewrite as_unsigned_Z. symmetry. apply Z.mod_small. split; [lia|].
    apply N2Z.inj_lt in WU. exact WU.
  - rewrite map_map. reflexivity.
  - rewrite le1; [reflexivity|]. apply Forall_forall. intros x Hx. apply in_map_iff in Hx as [z [<- _]].
    exact (as_unsigned_bound U8 z).
  - rewrite le1; [reflexivity|]. apply Forall_forall. intros x Hx. apply in_map_iff in Hx as [z [<- _]].
    unfold elem_bits. destruct (z =? 0)%Z; lia.
Qed.

Lemma elem_bits_bound d z : elem_bits d z < 2 ^ (8 * elem_bytes d).
Proof.
  destruct d; try apply (as_unsigned_bound _ z). cbn. destruct (z =? 0)%Z; lia.
Qed.

Lemma typed_ints d shape t : numeric d = true -> well_typed t ->
  as_ints (mkTD shape d (typed_bytes d t)) =
  Some (map (fun z => int_of_bits d (elem_bits d z)) (typed_values d t)).
Proof.
  intros Hd W. unfold as_ints. rewrite typed_bytes_eq by auto. rewrite vec_bits.
  - cbn [td_dtype]. rewrite map_map. reflexivity.
  - apply Forall_forall. intros x Hx. apply in_map_iff in Hx as [z [<- _]]. apply elem_bits_bound.
Qed.

Lemma typed_in_range d z : numeric d = true -> representable d z -> int_of_bits d (elem_bits d z) = z.
Proof.
  intros Hd R. symmetry. apply pattern_int; auto; [apply elem_bits_bound|].
  split; auto. destruct d; try discriminate Hd; cbn [elem_bits]; try (symmetry; apply as_unsigned_Z).
  destruct R as [->| ->]; reflexivity.
Qed.

Lemma typed_wraps d z : is_int d = true ->
  pattern_of d (as_unsigned (elem_bytes d) z) (int_of_bits d (elem_bits d z)).
Proof.
  intros Hd. apply int_of_bits_spec; auto; [apply as_unsigned_bound|].
  destruct d; try discriminate Hd; reflexivity.
Qed.

(** Shapes *)
Lemma convert_shape_nonneg dims : Forall (fun z => (0 <= z)%Z) dims ->
  Forall (fun z => (- 2 ^ 63 <= z < 2 ^ 63)%Z) dims -> convert_shape dims = map Z.to_N dims.
Proof.
  intros H1 H2. unfold convert_shape. apply map_ext_in. intros z Hz.
  rewrite Forall_forall in *. specialize (H1 z Hz). specialize (H2 z Hz).
  unfold as_unsigned. f_equal. apply Z.mod_small.
  change (2 ^ Z.of_N (8 * 8))%Z with (2 ^ 64)%Z. lia.
Qed.

Definition n_product (l : list N) : N := fold_right N.mul 1 l.
Lemma usize_product_small checks l : forall acc,
  (forall k, acc * n_product (firstn k l) < 2 ^ 64) ->
  usize_product checks acc l = Some (acc * n_product l).
Proof.
  induction l as [|x r IH]; intros acc H; cbn [usize_product].
  - unfold n_product. cbn. f_equal. lia.
  - assert (H1 : acc * x < 2 ^ 64) by (specialize (H 1%nat); unfold n_product in H; cbn in H; lia).
    rewrite (proj2 (N.leb_gt _ _)) by lia. rewrite Bool.andb_false_r.
    rewrite N.mod_small by auto. rewrite IH.
    + f_equal. unfold n_product. cbn. lia.
    + intros k. specialize (H (S k)). unfold n_product in *. cbn [firstn fold_right] in H. lia.
Qed.

Lemma n_product_count dims : Forall (fun z => (0 <= z)%Z) dims ->
  Z.of_N (n_product (map Z.to_N dims)) = element_count dims.
Proof.
  induction 1 as [|z r Hz Hr IH]; [reflexivity|].
  unfold n_product, element_count in *. cbn [map fold_right]. rewrite N2Z.inj_mul, IH. rewrite Z2N.id; lia.
Qed.

Lemma n_product_snoc l x : n_product (l ++ [x]) = n_product l * x.
Proof.
  unfold n_product. induction l as [|y l IH]; cbn [app fold_right]; [lia|]. rewrite IH. lia.
Qed.

Lemma external_size checks d dims : addressable d dims ->
  usize_product checks 1 (map Z.to_N dims ++ [dsize d]) = Some (Z.to_N (element_count dims) * elem_bytes d).
Proof.
  intros [H1 H2]. rewrite dsize_elem. pose proof (elem_bytes_pos d) as Hp.
  rewrite usize_product_small.
  - f_equal. rewrite n_product_snoc. rewrite <- (n_product_count dims H1). lia.
  - intros k. rewrite firstn_app, map_length.
    destruct (Nat.le_gt_cases k (length dims)) as [Hk|Hk].
    + replace (k - length dims)%nat with 0%nat by lia. cbn [firstn]. rewrite app_nil_r, firstn_map.
      specialize (H2 k). assert (Hf : Forall (fun z => (0 <= z)%Z) (firstn k dims)).
      { apply Forall_forall. intros z Hz. rewrite Forall_forall in H1. apply H1.
        rewrite <- (firstn_skipn k dims). apply in_or_app. auto. }
      rewrite <- (n_product_count _ Hf) in H2.
      apply N2Z.inj_lt. rewrite !N2Z.inj_mul. change (Z.of_N (2 ^ 64)) with (2 ^ 64)%Z. nia.
    + rewrite firstn_all2 by (rewrite map_length; lia).
      replace (firstn (k - length dims) [elem_bytes d]) with [elem_bytes d].
      2:{ destruct (k - length dims)%nat eqn:E; [lia|]. cbn. destruct n; reflexivity. }
      rewrite n_product_snoc. specialize (H2 (length dims)). rewrite firstn_all in H2.
      rewrite <- (n_product_count _ H1) in H2. 
      apply N2Z.inj_lt. rewrite !N2Z.inj_mul. change (Z.of_N (2 ^ 64)) with (2 ^ 64)%Z. lia.
Qed.

(** The argument type the format gives to a tensor of type [d] and shape [dims]. *)
Lemma initializer_type_spec dims d : Forall (fun z => (0 <= z)%Z) dims ->
  initializer_type (map Z.to_N dims) d =
  if (length dims =? 0)%nat then ScalarNative d
  else TensorT (mkTT d (N.of_nat (length dims)) (Some (map (fun z => Some (Z.to_N z)) dims))).
Proof.
  intros _. destruct dims as [|z r]; [reflexivity|].
  cbn [map initializer_type length Nat.eqb]. rewrite map_map, map_length. reflexivity.
Qed.

Section Main.
  Variable canonicalize : string -> option string.
  Variable checks : bool.
  Variable file_at : string -> option (list N).
  Variables mmap can_map : bool.
  Variable base : string.

  Lemma values_ok t d vs : numeric d = true -> well_typed t -> tp_type t = type_code d ->
    addressable d (tp_dims t) -> element_count (tp_dims t) = Z.of_nat (length vs) ->
    (forall p c, file_at p = Some c -> Forall byte c /\ N.of_nat (length c) < 2 ^ 63) ->
    holds file_at (fun loc path => resolve_path canonicalize base loc = inl path) t d vs ->
    exists r td,
      convert_initializer canonicalize checks t (Some base)
      = Done (if (length (tp_dims t) =? 0)%nat then ScalarNative d
              else TensorT (mkTT d (N.of_nat (length (tp_dims t)))
                                 (Some (map (fun z => Some (Z.to_N z)) (tp_dims t)))), r) /\
      to_tensor_data checks file_at mmap can_map r = Some td /\
      td_shape td = map Z.to_N (tp_dims t) /\ td_dtype td = d /\
      as_ints td = Some vs.
  Proof.
    intros Hd W Ht HA HC HF HH.
    assert (Hs : convert_shape (tp_dims t) = map Z.to_N (tp_dims t)).
    { apply convert_shape_nonneg; [apply HA|apply W]. }
    unfold convert_initializer, lazy_initializer, tensor_data_ref_from_proto.
    rewrite Ht, type_code_ok, Hs.
    destruct HH as [He Hr HB|He Hr HT HR|loc off n sum path content bs He HE Hp Hc Hn HRg HB]; rewrite He.
    - destruct (tp_raw t) as [|b rb] eqn:E; [congruence|].
      eexists _, _. split; [cbn; rewrite initializer_type_spec by apply HA; reflexivity|].
      cbn. split; [reflexivity|]. repeat split.
      apply bytes_hold_ints; auto. rewrite <- E. apply W.
    - rewrite Hr. eexists _, _.
      split; [cbn; rewrite initializer_type_spec by apply HA; reflexivity|].
      cbn. split; [reflexivity|]. repeat split.
      rewrite typed_ints by auto. f_equal. rewrite HT. rewrite <- (map_id vs) at 2. apply map_ext_in.
      intros z Hz. apply typed_in_range; auto. rewrite Forall_forall in HR. auto.
    - unfold create_external_data_ref.
      apply from_proto_entries_spec in HE. rewrite HE. cbn [location offset len]. rewrite Hp.
      assert (Hlen : N.of_nat (length bs) = Z.to_N (element_count (tp_dims t)) * elem_bytes d).
      { destruct HB as [HB _]. rewrite HC, HB. lia. }
      assert (Hb : Forall byte bs).
      { destruct (HF _ _ Hc) as [Hb _]. destruct HRg as (bef & aft & -> & _).
        apply Forall_forall. intros x Hx. rewrite Forall_forall in Hb. apply Hb.
        apply in_or_app. right. apply in_or_app. auto. }
      assert (HL : load_external_data mmap checks (file_at path) can_map off (N.of_nat (length bs)) = Loaded bs).
      { rewrite Hc. destruct HRg as (bef & aft & Heq & HO & HN).
        destruct (load_complete mmap checks content can_map off (N.of_nat (length bs))) as [bs' [-> (bef' & aft' & Heq' & HO' & HN')]].
        - rewrite Heq, !app_length. lia.
        - apply (HF _ _ Hc).
        - f_equal. rewrite Heq in Heq'.
          assert (H1 : length bef = length bef') by lia.
          assert (H2 : length bs = length bs') by lia.
          clear - Heq' H1 H2. revert bef' H1 Heq'. induction bef as [|x bef IH]; intros [|y bef'] H1 Heq'; try discriminate H1.
          + cbn in Heq'. revert bs' H2 Heq'. induction bs as [|x bs IH]; intros [|y bs'] H2 Heq'; try discriminate H2; auto.
            cbn in Heq'. injection Heq' as -> Heq'. f_equal. apply IH; auto.
          + cbn in Heq'. injection Heq' as -> Heq'. apply (IH bef'); auto. }
      assert (HX : (match n with
         | Some n => Done (mkRef (map Z.to_N (tp_dims t)) d (External path off n))
         | None => match usize_product checks 1 (map Z.to_N (tp_dims t) ++ [dsize d]) with
                   | None => Panic
                   | Some n => Done (mkRef (map Z.to_N (tp_dims t)) d (External path off n))
                   end end) = Done (mkRef (map Z.to_N (tp_dims t)) d (External path off (N.of_nat (length bs))))).
      { destruct Hn as [-> | ->]; [|reflexivity].
        rewrite external_size by auto. rewrite Hlen. reflexivity. }
      rewrite HX. eexists _, _. split; [cbn; rewrite initializer_type_spec by apply HA; reflexivity|].
      unfold to_tensor_data. cbn [dr_source dr_shape dr_dtype]. rewrite HL.
      split; [reflexivity|]. repeat split. apply bytes_hold_ints; auto.
  Qed.

  (** Unsupported types are refused. *)
  Lemma unsupported t b : (forall d, tp_type t <> type_code d) ->
    convert_initializer canonicalize checks t b = Panic.
  Proof.
    intros H. assert (E : element_type_from_proto (tp_type t) = None).
    { destruct (element_type_from_proto (tp_type t)) as [d|] eqn:E; [|reflexivity].
      apply type_code_only in E. exfalso. apply (H d E). }
    unfold convert_initializer, lazy_initializer, eager_initializer, tensor_data_ref_from_proto.
    rewrite E. destruct (existsb _ _); [reflexivity|].
    destruct (match tp_dims t with [] => Some 1 | _ :: _ => _ end); [|reflexivity].
    destruct (_ && _); [reflexivity|]. destruct (_ && _); reflexivity.
  Qed.

  (** The fallback never makes up data. *)
  Lemma external_or_empty t b ty r : tp_external t = true ->
    addressable F64 (tp_dims t) -> well_typed t ->
    convert_initializer canonicalize checks t b = Done (ty, r) ->
    (exists bd loc off n sum path l, b = Some bd /\ entries_describe (tp_entries t) loc off n sum /\
       resolve_path canonicalize bd loc = inl path /\ dr_source r = External path off l /\
       (n = Some l \/ n = None /\ l = Z.to_N (element_count (tp_dims t)) * elem_bytes (dr_dtype r))) \/
    (dr_source r = Embedded [] /\ element_count (tp_dims t) = 0%Z).
  Proof.
    intros He HA W. unfold convert_initializer, lazy_initializer, eager_initializer, tensor_data_ref_from_proto.
    assert (Hs : convert_shape (tp_dims t) = map Z.to_N (tp_dims t)).
    { apply convert_shape_nonneg; [apply HA|apply W]. }
    rewrite Hs, He.
    destruct (element_type_from_proto (tp_type t)) as [d|] eqn:Ed.
    - assert (HD : addressable d (tp_dims t)).
      { destruct HA as [H1 H2]. split; auto. intros k. specialize (H2 k). cbn in H2.
        assert (0 <= element_count (firstn k (tp_dims t)))%Z.
        { assert (Hf : Forall (fun z => (0 <= z)%Z) (firstn k (tp_dims t))).
          { apply Forall_forall. intros z Hz. rewrite Forall_forall in H1. apply H1.
            rewrite <- (firstn_skipn k). apply in_or_app. left. exact Hz. }
          rewrite <- (n_product_count _ Hf). lia. }
        assert (Hw : (Z.of_N (elem_bytes d) <= 8)%Z) by (destruct d; cbn; lia).
        change (Z.of_N 8) with 8%Z in H2. nia. }
      destruct (create_external_data_ref canonicalize checks t b (map Z.to_N (tp_dims t)) d) as [r'| |] eqn:EC.
      + intros [= <- <-]. left. unfold create_external_data_ref in EC.
        destruct (from_proto_entries (tp_entries t)) as [info|] eqn:EI; [|discriminate].
        destruct b as [bd|]; [|discriminate].
        destruct (resolve_path canonicalize bd (location info)) as [path|] eqn:ER; [|discriminate].
        destruct info as [loc off n sum]. cbn [location offset len] in *.
        apply from_proto_entries_spec in EI.
        destruct n as [l|].
        * injection EC as <-. exists bd, loc, off, (Some l), sum, path, l. split; [reflexivity|]. split; [exact EI|]. auto.
        * rewrite external_size in EC by auto. injection EC as <-.
          exists bd, loc, off, None, sum, path, (Z.to_N (element_count (tp_dims t)) * elem_bytes d).
          cbn [dr_source dr_dtype]. split; [reflexivity|]. split; [exact EI|]. auto.
      + destruct (create_external_data_ref canonicalize checks t None (map Z.to_N (tp_dims t)) d) as [r'| |] eqn:EN.
        * unfold create_external_data_ref in EN. destruct (from_proto_entries _); discriminate.
        * destruct (existsb _ _); [discriminate|].
          destruct (match tp_dims t with [] => Some 1 | _ :: _ => _ end) as [de|] eqn:EP; [|discriminate].
          destruct (_ && _); [discriminate|].
          destruct ((de =? 0) && (payload_len t de =? 0) && _) eqn:EB; [|discriminate].
          intros [= <- <-]. right. split; [reflexivity|].
          apply andb_prop in EB as [EB EB2]. apply andb_prop in EB as [EB _]. apply N.eqb_eq in EB. subst de.
          destruct (tp_dims t) as [|z0 zs] eqn:EZ; [discriminate|]. rewrite <- EZ in *.
          assert (HP : usize_product checks 1 (map Z.to_N (tp_dims t)) = Some (1 * n_product (map Z.to_N (tp_dims t)))).
          { apply usize_product_small. intros k. rewrite firstn_map.
            destruct HA as [H1 H2]. specialize (H2 k).
            assert (Hf : Forall (fun z => (0 <= z)%Z) (firstn k (tp_dims t))).
            { apply Forall_forall. intros z Hz. rewrite Forall_forall in H1. apply H1.
              rewrite <- (firstn_skipn k). apply in_or_app. left. exact Hz. }
            rewrite <- (n_product_count _ Hf) in H2. change (elem_bytes F64) with 8 in H2. lia. }
          rewrite HP in EP. assert (HZ : 1 * n_product (map Z.to_N (tp_dims t)) = 0) by congruence.
          rewrite <- (n_product_count (tp_dims t)) by apply HA. lia.
        * discriminate.
      + discriminate.
    - destruct (existsb _ _); [discriminate|].
      destruct (match tp_dims t with [] => Some 1 | _ :: _ => _ end) as [de|] eqn:EP; [|discriminate].
      destruct (_ && _); [discriminate|]. destruct (_ && _); discriminate.
  Qed.
End Main.

(** The constants made from a list of initializers read back as their
    initializers. *)
Section Constants.
  Variable canonicalize : string -> option string.
  Variable checks : bool.

  Lemma str_length_app (a b : string) : String.length (a ++ b)%string = (String.length a + String.length b)%nat.
  Proof. induction a; cbn; auto. Qed.

  Lemma out1_inj a b : (a ++ "_out1")%string = (b ++ "_out1")%string -> a = b.
  Proof.
    revert b. induction a as [|c a IH]; intros [|e b] H; auto.
    - exfalso. cbn in H. apply (f_equal String.length) in H. cbn in H.
      rewrite str_length_app in H. cbn in H. lia.
    - exfalso. cbn in H. apply (f_equal String.length) in H. cbn in H.
      rewrite str_length_app in H. cbn in H. lia.
    - cbn in H. injection H as -> H. f_equal. auto.
  Qed.

  Lemma process_spec base : forall ts names st cmap ns st' cmap',
    (@store_inv data_ref) st -> length names = length ts -> NoDup names ->
    process_initializers canonicalize checks ts names st cmap base = Some (ns, st', cmap') ->
    (forall id, (id < next_id st) -> get st' id = get st id) /\
    (forall k, (forall name, In name names -> k <> (name ++ "_out1")%string) -> sget cmap' k = sget cmap k) /\
    length ns = length ts /\
    forall i t name n, nth_error ts i = Some t -> nth_error names i = Some name -> nth_error ns i = Some n ->
      exists ty r id, convert_initializer canonicalize checks t base = Done (ty, r) /\
        n = create_constant_node name (name ++ "_out1")%string ty id /\
        sget cmap' (name ++ "_out1")%string = Some id /\ get st' id = Some r.
  Proof.
    induction ts as [|t ts IH]; intros [|name names] st cmap ns st' cmap' Hinv HL HD E; try discriminate HL.
    - cbn in E. injection E as <- <- <-. repeat split; auto. intros [|i] ? ? ? H; discriminate H.
    - cbn in E. destruct (convert_initializer canonicalize checks t base) as [[ty r]| |] eqn:EC; try discriminate.
      destruct (process_initializers _ _ ts names _ _ base) as [[[ns2 st2] cm2]|] eqn:EP; [|discriminate].
      injection E as <- <- <-.
      inversion HD as [|? ? Hni HD']; subst.
      apply IH in EP; [|intros id d [H|H]; cbn; [inversion H; subst; lia|apply Hinv in H; lia]|cbn in HL; lia|exact HD'].
      cbn [next_id] in EP. destruct EP as (G & M & L & F).
      repeat split.
      + intros id Hid. rewrite G by lia. unfold get. cbn.
        destruct (N.eqb_spec (next_id st) id); [lia|reflexivity].
      + intros k Hk. rewrite M by (intros nm Hn; apply Hk; right; exact Hn).
        unfold sput. cbn. destruct (String.eqb_spec (name ++ "_out1")%string k) as [E1|]; [|reflexivity].
        exfalso. apply (Hk name); [left; reflexivity|auto].
      + cbn. lia.
      + intros [|i] t0 name0 n0 Ht Hn Hnn.
        * cbn in Ht, Hn, Hnn. injection Ht as <-. injection Hn as <-. injection Hnn as <-.
          exists ty, r, (next_id st). split; [exact EC|]. split; [reflexivity|]. split.
          -- rewrite M.
             ++ unfold sput. cbn. rewrite String.eqb_refl. reflexivity.
             ++ intros nm Hnm H. apply out1_inj in H. subst nm. contradiction.
          -- rewrite G by lia. unfold get. cbn. rewrite N.eqb_refl. reflexivity.
        * cbn in Ht, Hn, Hnn. exact (F i t0 name0 n0 Ht Hn Hnn).
  Qed.
End Constants.
