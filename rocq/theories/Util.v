(** Shared helpers: enumeration of lists and decimal printing.  No property
    of the code is stated here. *)
From Coq Require Export String Ascii.
From Coq Require Export List Bool Arith NArith ZArith Lia.
From Coq Require Import DecimalString DecimalN.
Export ListNotations.

(** [iter().enumerate()] of Rust. *)
Fixpoint enumerate_from {A} (i : nat) (l : list A) : list (nat * A) :=
  match l with
  | [] => []
  | x :: r => (i, x) :: enumerate_from (S i) r
  end.
Definition enumerate {A} (l : list A) : list (nat * A) := enumerate_from 0 l.

Lemma enumerate_from_spec {A} (l : list A) : forall i k x,
  In (k, x) (enumerate_from i l) <-> exists j, k = i + j /\ nth_error l j = Some x.
Proof.
  induction l as [|a r IH]; intros i k x; cbn.
  - split; [tauto|]. intros [j [_ H]]. destruct j; discriminate H.
  - rewrite IH. split.
    + intros [H | [j [Hk Hj]]].
      * inversion H; subst. exists 0. split; [lia|reflexivity].
      * exists (S j). split; [lia|exact Hj].
    + intros [[|j] [Hk Hj]].
      * left. cbn in Hj. inversion Hj; subst. f_equal; lia.
      * right. exists j. split; [lia|exact Hj].
Qed.

Lemma enumerate_spec {A} (l : list A) k x :
  In (k, x) (enumerate l) <-> nth_error l k = Some x.
Proof.
  unfold enumerate. rewrite enumerate_from_spec. split.
  - intros [j [Hk Hj]]. replace k with j by lia. exact Hj.
  - intros H. exists k. split; [lia|exact H].
Qed.

(** Decimal printing of an unsigned integer, as [format!("{}", n)]. *)
Definition dec (n : N) : string := NilEmpty.string_of_uint (N.to_uint n).

Lemma dec_inj n m : dec n = dec m -> n = m.
Proof.
  unfold dec. intros H.
  apply (f_equal NilEmpty.uint_of_string) in H.
  rewrite !NilEmpty.usu in H. inversion H as [H1].
  apply (f_equal N.of_uint) in H1.
  rewrite !DecimalN.Unsigned.of_to in H1. exact H1.
Qed.

Lemma dec_nonempty n : dec n <> EmptyString.
Proof.
  unfold dec. intros H.
  destruct (N.to_uint n) eqn:E; cbn in H; try discriminate H.
  pose proof (DecimalN.Unsigned.of_to n) as H0. rewrite E in H0. cbn in H0.
  subst n. discriminate E.
Qed.

(** Lower-casing of ASCII characters, as [to_lowercase] on ASCII text. *)
Definition lower_ascii (c : ascii) : ascii :=
  let n := N_of_ascii c in
  if (65 <=? n)%N && (n <=? 90)%N then ascii_of_N (n + 32) else c.

Fixpoint string_map (f : ascii -> ascii) (s : string) : string :=
  match s with
  | EmptyString => EmptyString
  | String c r => String (f c) (string_map f r)
  end.

Definition lower (s : string) : string := string_map lower_ascii s.

Fixpoint string_forall (p : ascii -> bool) (s : string) : bool :=
  match s with
  | EmptyString => true
  | String c r => p c && string_forall p r
  end.

Definition is_digit (c : ascii) : bool :=
  let n := N_of_ascii c in (48 <=? n)%N && (n <=? 57)%N.

Lemma dec_digits n : string_forall is_digit (dec n) = true.
Proof.
  unfold dec. generalize (N.to_uint n). intros d.
  induction d; cbn [NilEmpty.string_of_uint string_forall]; auto.
Qed.

Lemma string_map_app f a b : string_map f (a ++ b)%string = (string_map f a ++ string_map f b)%string.
Proof. induction a; cbn; congruence. Qed.

Lemma string_forall_app p a b :
  string_forall p (a ++ b)%string = string_forall p a && string_forall p b.
Proof. induction a; cbn; [reflexivity|]. rewrite IHa. apply andb_assoc. Qed.

Lemma lower_digits s : string_forall is_digit s = true -> lower s = s.
Proof.
  unfold lower. induction s as [|c r IH]; cbn; [reflexivity|].
  rewrite andb_true_iff. intros [Hc Hr]. rewrite (IH Hr). f_equal.
  unfold is_digit in Hc. unfold lower_ascii.
  rewrite andb_true_iff, !N.leb_le in Hc.
  destruct (65 <=? N_of_ascii c)%N eqn:E; [|reflexivity].
  apply N.leb_le in E. lia.
Qed.

Lemma lower_dec n : lower (dec n) = dec n.
Proof. apply lower_digits, dec_digits. Qed.

Lemma string_app_assoc (a b c : string) : ((a ++ b) ++ c = a ++ (b ++ c))%string.
Proof. induction a; cbn; congruence. Qed.

Lemma string_app_inj_l (a b c : string) : (a ++ b = a ++ c)%string -> b = c.
Proof. induction a; cbn; intros H; [exact H|]. inversion H. auto. Qed.

(** Two concatenations are equal iff one prefix extends the other. *)
Lemma string_app_split (a b c d : string) :
  (a ++ b = c ++ d)%string ->
  (exists e, a = (c ++ e)%string /\ d = (e ++ b)%string) \/
  (exists e, c = (a ++ e)%string /\ b = (e ++ d)%string).
Proof.
  revert c. induction a as [|x a IH]; intros c H.
  - right. exists c. cbn in *. auto.
  - destruct c as [|y c].
    + left. exists (String x a). cbn in *. auto.
    + cbn in H. inversion H; subst y. apply IH in H2.
      destruct H2 as [[e [E1 E2]]|[e [E1 E2]]]; [left|right]; exists e; subst; auto.
Qed.

Definition mem_str (s : string) (l : list string) : bool := existsb (String.eqb s) l.

Lemma mem_str_In s l : mem_str s l = true <-> In s l.
Proof.
  unfold mem_str. rewrite existsb_exists. split.
  - intros [x [Hx E]]. apply String.eqb_eq in E. subst. exact Hx.
  - intros H. exists s. split; [exact H|]. apply String.eqb_refl.
Qed.

Lemma mem_str_false s l : mem_str s l = false <-> ~ In s l.
Proof.
  rewrite <- mem_str_In. destruct (mem_str s l); split; congruence.
Qed.
