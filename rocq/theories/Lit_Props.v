(** C79: the numbers of the model stand in the generated code. *)
From Coq Require Import DecimalString DecimalN.
From Verif Require Import IR_Model Iface_Spec Iface_Proofs Lit_Spec Lit_Model.
Local Open Scope string_scope.
Local Open Scope list_scope.

Lemma dec_first n : exists c r, dec n = String c r /\ is_digit c = true.
Proof.
  pose proof (dec_nonempty n) as H. unfold dec in *. destruct (N.to_uint n); cbn in *; try congruence; eexists; eexists; (split; [reflexivity|reflexivity]).
Qed.

Lemma dec_not n t : (forall c r, t = String c r -> is_digit c = false) -> (dec n =? t) = false.
Proof.
  intros H. apply String.eqb_neq. intros E. destruct (dec_first n) as [c [r [Hd Hc]]]. rewrite (H c r) in Hc; [discriminate|congruence].
Qed.

(** Every integer is read back from its tokens. *)
Theorem C79_integers : forall z : Z, read_int (int_tokens z) = Some z.
Proof.
  intros z. unfold int_tokens, signed. destruct (Z.ltb_spec z 0); cbn [read_int]; rewrite read_dec; cbn.
  - f_equal. rewrite N2Z.inj_abs_N. lia.
  - f_equal. rewrite N2Z.inj_abs_N. lia.
Qed.
Print Assumptions C79_integers.

(** So is every list of integers, of any length. *)
Theorem C79_arrays : forall l : list Z, read_array (array_tokens l) = Some l.
Proof.
  intros l. unfold read_array, array_tokens. cbn [app]. rewrite String.eqb_refl. induction l as [|z l IH]; [reflexivity|].
  cbn [flat_map]. rewrite <- !app_assoc. pose proof (C79_integers z) as Hz.
  assert (Hd : forall n, (dec n =? "]") = false /\ (dec n =? "-") = false).
  { intros n. split; apply dec_not; intros c r E; injection E as <- <-; reflexivity. }
  unfold int_tokens, signed in *. destruct (z <? 0)%Z.
  - cbn [app read_items]. change ("-" =? "]") with false. cbn iota. rewrite String.eqb_refl. change ("," =? ",") with true. cbn iota.
    rewrite Hz, IH. reflexivity.
  - destruct (Hd (Z.abs_N z)) as [H1 H2]. cbn [app read_items]. rewrite H1, H2. change ("," =? ",") with true. cbn iota.
    rewrite Hz, IH. reflexivity.
Qed.
Print Assumptions C79_arrays.

Lemma numeral_all m s : every is_num m = true -> (match s with String c _ => is_num c = false | EmptyString => True end) ->
  numeral (m ++ s)%string = (m, s).
Proof.
  intros Hm Hs. induction m as [|c r IH]; cbn in *.
  - destruct s as [|c r]; [reflexivity|]. cbn. rewrite Hs. reflexivity.
  - apply andb_true_iff in Hm. destruct Hm as [Hc Hr]. rewrite Hc, (IH Hr). reflexivity.
Qed.

Lemma literal_suffix m s : starts_with_digit m = true -> every is_num m = true ->
  (match s with String c _ => is_num c = false | EmptyString => True end) ->
  read_literal (m ++ s) =
    if (s =? "") then (if has_point m then Some (None, m) else None)
    else if (s =? "f32") || (s =? "_f32") then Some (Some T32, m)
    else if (s =? "f64") || (s =? "_f64") then Some (Some T64, m) else None.
Proof.
  intros H1 H2 H3. unfold read_literal. rewrite (numeral_all m s H2 H3).
  replace (starts_with_digit (m ++ s)) with true; [reflexivity|]. destruct m; [discriminate H1|]. symmetry. exact H1.
Qed.

(** The scalars of Constant and the fill of ConstantOfShape: every number, also
    infinite ones and NaN, is read back with its type. *)
Theorem C79_constants : forall (t : fty) (f : rfloat), notation_ok f -> read_float (float_tokens t f) = Some (Some t, f).
Proof.
  intros t [|[|]|neg m] H; [destruct t; reflexivity..|]. destruct H as [H1 [H2 _]]. unfold float_tokens, signed.
  destruct neg, t; cbn [read_float suffix]; rewrite ?String.eqb_refl, literal_suffix by (exact H1 || exact H2 || reflexivity); reflexivity.
Qed.
Print Assumptions C79_constants.

(** Full statement: [read_float (primitive_tokens f)] gives [f] for every [f],
    for attributes written through [to_tokens] (Elu, Celu, HardSigmoid,
    LeakyRelu, ThresholdedRelu, Dropout); the same for numbers put into the code
    directly (Clip) and for the fill of Pad.  Missing: infinite numbers and NaN
    (see the refutations below). *)
Theorem C79_attributes_partial : forall f : rfloat, notation_ok f -> finite f ->
  read_float (primitive_tokens f) = Some (None, f)
  /\ (forall t, exists ts, quoted_tokens t f = Some ts /\ read_float ts = Some (Some t, f))
  /\ read_float (pad_tokens f) = Some (Some T32, f).
Proof.
  intros [|neg|neg m] H F; try destruct F. destruct H as [H1 [H2 H3]].
  assert (Hp : read_literal m = Some (None, m)).
  { pose proof (literal_suffix m "" H1 H2 I) as L. cbn in L. rewrite H3 in L.
    replace (m ++ "")%string with m in L; [exact L|]. clear. induction m; cbn; congruence. }
  split; [|split].
  - unfold primitive_tokens, signed. destruct neg; cbn [read_float]; rewrite ?String.eqb_refl, Hp; reflexivity.
  - intros t. eexists. split; [reflexivity|]. unfold signed.
    destruct neg, t; cbn [read_float suffix]; rewrite ?String.eqb_refl, literal_suffix by (exact H1 || exact H2 || reflexivity); reflexivity.
  - unfold pad_tokens, signed. destruct neg; cbn [read_float]; rewrite ?String.eqb_refl, literal_suffix by (exact H1 || exact H2 || reflexivity); reflexivity.
Qed.
Print Assumptions C79_attributes_partial.

(** Infinite numbers and NaN: attributes and the fill of Pad become names that
    mean nothing, so the code does not compile; numbers put into the code
    directly stop the generator. *)
Theorem C79_attributes_refuted : forall f : rfloat, ~ finite f ->
  read_float (primitive_tokens f) = None /\ read_float (pad_tokens f) = None /\ (forall t, quoted_tokens t f = None).
Proof. intros [|[|]|neg m] H; try (repeat split; reflexivity). destruct H. exact I. Qed.
Print Assumptions C79_attributes_refuted.

(** What a padding means. *)
Definition padding_of (dims : nat) (p : pconf) : padding :=
  match p with
  | PValid => PNone dims
  | P1 l r => PSides [l] [r]
  | P2 t l b r => PSides [t; l] [b; r]
  | P3 f t l k b r => PSides [f; t; l] [k; b; r]
  end.

(** Paddings are read back; in three dimensions different sides are refused and
    nothing else is. *)
Theorem C79_paddings : forall (dims : nat) (p : pconf) (ts : list token), 1 <= dims <= 3 ->
  padding_tokens dims p = Some ts -> read_padding ts = Some (padding_of dims p).
Proof.
  intros dims p ts Hd H. destruct p as [|l r|t l b r|f t l k b r]; cbn in H.
  - injection H as <-. destruct dims as [|[|[|[|dims]]]]; try lia; reflexivity.
  - injection H as <-. cbn -[read_number dec]. rewrite !read_dec. reflexivity.
  - injection H as <-. cbn -[read_number dec]. rewrite !read_dec. reflexivity.
  - destruct (N.eqb_spec f k); [|discriminate H]. destruct (N.eqb_spec t b); [|discriminate H]. destruct (N.eqb_spec l r); [|discriminate H].
    subst. cbn -[read_number dec] in H. injection H as <-. cbn -[read_number dec]. rewrite !read_dec. reflexivity.
Qed.
Print Assumptions C79_paddings.

Theorem C79_padding_refusals : forall (dims : nat) (p : pconf), padding_tokens dims p = None <->
  exists f t l k b r, p = P3 f t l k b r /\ (f, t, l) <> (k, b, r).
Proof.
  intros dims p. split.
  - destruct p as [|l r|t l b r|f t l k b r]; cbn; try discriminate. intros H. exists f, t, l, k, b, r. split; [reflexivity|].
    intros E. injection E as <- <- <-. rewrite !N.eqb_refl in H. discriminate H.
  - intros [f [t [l [k [b [r [-> H]]]]]]]. cbn.
    destruct (N.eqb_spec f k); [|reflexivity]. destruct (N.eqb_spec t b); [|reflexivity]. destruct (N.eqb_spec l r); [|reflexivity].
    subst. destruct H. reflexivity.
Qed.
Print Assumptions C79_padding_refusals.

(** ** Cases. *)
Example C79_least : int_tokens (-9223372036854775808) = ["-"; "9223372036854775808"].
Proof. reflexivity. Qed.
Example C79_some_array : array_tokens [3; -1; 0]%Z = ["["; "3"; ","; "-"; "1"; ","; "0"; ","; "]"].
Proof. reflexivity. Qed.
Example C79_notation : notation_ok (RFin true "1e-7") /\ finite (RFin true "1e-7") /\ float_tokens T32 (RFin true "1e-7") = ["-"; "1e-7f32"].
Proof. repeat split. Qed.
Example C79_padded : padding_tokens 2 (P2 1 2 3 4) = Some ["PaddingConfig2d"; "::"; "Explicit"; "("; "1"; ","; "2"; ","; "3"; ","; "4"; ")"].
Proof. reflexivity. Qed.
