From Verif Require Import Util Sanitize_Model Sanitize_Spec.
From Coq Require Import ZifyBool ZifyN.
Local Open Scope N_scope.

Lemma alnum_eq c : is_alnum c = alnumb c. Proof. reflexivity. Qed.
Lemma low_eq c : to_low c = lowerb c. Proof. reflexivity. Qed.

Lemma alnum_not_us c : alnumb c = true -> (c =? us) = false.
Proof. unfold alnumb, us. lia. Qed.
Lemma lowerb_not_us c : alnumb c = true -> lowerb c <> us.
Proof. unfold alnumb, lowerb, us. intros. destruct (_ && _) eqn:E; lia. Qed.
Lemma lowerb_low_or_dig c : alnumb c = true -> letter_low (lowerb c) \/ digit (lowerb c).
Proof. unfold alnumb, lowerb, letter_low, digit. intros. destruct (_ && _) eqn:E; lia. Qed.

(** Texts appended by the loop, in word and after an underscore, with
    trailing underscores. *)
Fixpoint tin (pl : bool) (s : list N) : list N :=
  match s with
  | [] => []
  | c :: r =>
    if alnumb c then (if is_up c && pl then [us] else []) ++ lowerb c :: tin (is_low c) r
    else us :: (fix tout (s : list N) : list N :=
           match s with
           | [] => []
           | c :: r => if alnumb c then lowerb c :: tin (is_low c) r else tout r
           end) r
  end.
Fixpoint tout (s : list N) : list N :=
  match s with
  | [] => []
  | c :: r => if alnumb c then lowerb c :: tin (is_low c) r else tout r
  end.

Lemma tin_cons pl c r : tin pl (c :: r) =
  if alnumb c then (if is_up c && pl then [us] else []) ++ lowerb c :: tin (is_low c) r
  else us :: tout r.
Proof. reflexivity. Qed.

Lemma words_in_cons prev cur c r : words_in prev cur (c :: r) =
  if alnumb c then
    if boundary prev c then cur :: words_in c [lowerb c] r
    else words_in c (cur ++ [lowerb c]) r
  else cur :: words r.
Proof. reflexivity. Qed.

Lemma loop_spec : forall s i a pl pu,
  acc (san_loop (S i) s {| acc := a; prev_is_lower := pl; prev_is_underscore := pu |})
  = rev (if pu then tout s else tin pl s) ++ a.
Proof.
  induction s as [|c r IH]; intros i a pl pu.
  - destruct pu; reflexivity.
  - cbn [san_loop]. unfold san_step.
    cbn [acc prev_is_lower prev_is_underscore Nat.eqb].
    rewrite alnum_eq. destruct (c =? us) eqn:Ec.
    + assert (Ha : alnumb c = false).
      { destruct (alnumb c) eqn:E; [|reflexivity]. apply alnum_not_us in E. congruence. }
      destruct pu; cbn [negb orb]; rewrite IH; rewrite ?tin_cons; cbn [tout]; rewrite Ha.
      * reflexivity.
      * cbn [rev]. rewrite <- app_assoc. reflexivity.
    + destruct (alnumb c) eqn:Ha.
      * rewrite IH. cbn [tout]. rewrite ?tin_cons, Ha, low_eq.
        destruct pu; cbn [negb].
        -- rewrite !andb_false_r. cbn [rev]. rewrite <- app_assoc. reflexivity.
        -- rewrite andb_true_r. destruct (is_up c && pl); cbn [app rev];
             rewrite <- !app_assoc; reflexivity.
      * rewrite andb_true_r. destruct pu; cbn [negb]; rewrite IH; cbn [tout];
          rewrite ?tin_cons, Ha; [reflexivity|].
        cbn [rev]. rewrite <- app_assoc. reflexivity.
Qed.

(** Stripping: on [rev (x ++ [c])]-like lists. *)
Lemma strip_non_us c r : c <> us -> strip_trailing (c :: r) = c :: r.
Proof.
  intros H. destruct r; [reflexivity|]. cbn [strip_trailing].
  destruct (N.eqb_spec c us); [contradiction|reflexivity].
Qed.

Lemma strip_us c r : c <> us -> strip_trailing (us :: c :: r) = c :: r.
Proof.
  intros H. change (strip_trailing (us :: c :: r)) with
    (if us =? us then if forallb (N.eqb us) (us :: c :: r) then us :: c :: r
                      else strip_trailing (c :: r) else us :: c :: r).
  rewrite N.eqb_refl. cbn [forallb].
  destruct (N.eqb_spec us c); [congruence|]. rewrite andb_false_r.
  apply strip_non_us. exact H.
Qed.

Definition tail_of (ws : list (list N)) : list N :=
  concat (map (fun w => us :: w) ws).

Lemma join_cons w ws : join (w :: ws) = w ++ tail_of ws.
Proof.
  revert w. induction ws as [|x ws IH]; intros w.
  - cbn. rewrite app_nil_r. reflexivity.
  - change (join (w :: x :: ws)) with (w ++ underscore :: join (x :: ws)).
    rewrite IH. reflexivity.
Qed.

Definition ends_ok (l : list N) : Prop := exists c l', rev l = c :: l' /\ c <> us.

Lemma ends_ok_app a b : ends_ok b -> ends_ok (a ++ b).
Proof.
  intros (c & l' & E & Hc). exists c, (l' ++ rev a).
  rewrite rev_app_distr, E. auto.
Qed.

Lemma ends_ok_single c : alnumb c = true -> ends_ok [lowerb c].
Proof. intros H. exists (lowerb c), []. split; [reflexivity|apply lowerb_not_us, H]. Qed.

Lemma is_low_boundary prev c : is_up c && is_low prev = boundary prev c.
Proof. unfold is_up, is_low, boundary. lia. Qed.

Lemma words_in_nonempty : forall s prev cur, words_in prev cur s <> [].
Proof.
  induction s as [|c r IH]; intros prev cur; [discriminate|].
  rewrite words_in_cons. destruct (alnumb c); [|discriminate].
  destruct (boundary prev c); [discriminate|apply IH].
Qed.

(** Text of a list of words with possibly one trailing underscore. *)
Definition renders (txt : list N) (ws : list (list N)) : Prop :=
  exists t, txt = join ws ++ t /\ (t = [] \/ t = [us]) /\ ends_ok (join ws).

Lemma renders_cons cur txt ws : ws <> [] -> renders txt ws ->
  renders (cur ++ us :: txt) (cur :: ws).
Proof.
  intros Hne (t & E & Ht & He). exists t.
  destruct ws as [|x ws]; [contradiction|].
  change (join (cur :: x :: ws)) with (cur ++ us :: join (x :: ws)).
  split; [|split; [exact Ht|]].
  - rewrite E, <- app_assoc. reflexivity.
  - apply ends_ok_app. change (us :: join (x :: ws)) with ([us] ++ join (x :: ws)).
    apply ends_ok_app. exact He.
Qed.

Lemma tin_tout_words : forall n s, (length s <= n)%nat ->
  (forall prev cur, ends_ok cur -> renders (cur ++ tin (is_low prev) s) (words_in prev cur s)) /\
  (match words s with [] => tout s = [] | _ => renders (tout s) (words s) end).
Proof.
  induction n as [|n IH]; intros s Hlen.
  - destruct s; [|cbn in Hlen; lia]. split; [|reflexivity].
    intros prev cur Hc. exists []. cbn. rewrite !app_nil_r. auto.
  - destruct s as [|c r].
    { split; [|reflexivity]. intros prev cur Hc. exists []. cbn. rewrite !app_nil_r. auto. }
    cbn [length] in Hlen. destruct (IH r) as [Hin Hout]; [lia|]. split.
    + intros prev cur Hc. rewrite tin_cons, words_in_cons.
      destruct (alnumb c) eqn:Ha.
      * rewrite is_low_boundary. destruct (boundary prev c).
        -- cbn [app]. apply renders_cons; [apply words_in_nonempty|].
           apply (Hin c [lowerb c]). apply ends_ok_single, Ha.
        -- cbn [app]. specialize (Hin c (cur ++ [lowerb c])).
           rewrite <- app_assoc in Hin. apply Hin. apply ends_ok_app, ends_ok_single, Ha.
      * destruct (words r) as [|w ws] eqn:Ew.
        -- rewrite Hout. exists [us]. cbn [join]. auto.
        -- apply renders_cons; [discriminate|exact Hout].
    + cbn [words tout]. destruct (alnumb c) eqn:Ha; [|exact Hout].
      specialize (Hin c [lowerb c] (ends_ok_single c Ha)).
      destruct (words_in c [lowerb c] r) eqn:E; [exfalso; eapply words_in_nonempty, E|].
      exact Hin.
Qed.

Lemma tout_words s : match words s with [] => tout s = [] | _ => renders (tout s) (words s) end.
Proof. apply (tin_tout_words (length s) s). lia. Qed.
Lemma tin_words s prev cur : ends_ok cur ->
  renders (cur ++ tin (is_low prev) s) (words_in prev cur s).
Proof. apply (tin_tout_words (length s) s). lia. Qed.

Lemma strip_renders pre txt ws : renders txt ws ->
  rev (strip_trailing (rev (pre ++ txt))) = pre ++ join ws.
Proof.
  intros (t & E & Ht & (c & l' & Ee & Hc)). subst txt.
  rewrite !rev_app_distr, Ee. destruct Ht as [->| ->]; cbn [rev app].
  - rewrite strip_non_us by exact Hc.
    change (c :: l' ++ rev pre) with ((c :: l') ++ rev pre). rewrite <- Ee.
    rewrite rev_app_distr, !rev_involutive. reflexivity.
  - rewrite strip_us by exact Hc.
    change (c :: l' ++ rev pre) with ((c :: l') ++ rev pre). rewrite <- Ee.
    rewrite rev_app_distr, !rev_involutive. reflexivity.
Qed.

Lemma fix_first_eq s : Forall (fun d => letter_low d \/ digit d \/ d = underscore) s ->
  fix_first s = match s with
  | c :: r => if (48 <=? c) && (c <=? 57) then underscore :: c :: r else c :: r
  | [] => [] end.
Proof.
  destruct s as [|c r]; [reflexivity|]. intros H. inversion H; subst.
  unfold fix_first, is_up, is_low, us, underscore, letter_low, digit in *.
  destruct ((48 <=? c) && (c <=? 57)) eqn:E;
    destruct ((65 <=? c) && (c <=? 90) || (97 <=? c) && (c <=? 122) || (c =? 95)) eqn:E2; lia || reflexivity.
Qed.

Definition okc (d : N) : Prop := letter_low d \/ digit d \/ d = underscore.
Lemma okc_lowerb c : alnumb c = true -> okc (lowerb c).
Proof. intros H. destruct (lowerb_low_or_dig c H); unfold okc; auto. Qed.

Definition wordok (w : list N) : Prop :=
  w <> [] /\ Forall (fun d => letter_low d \/ digit d) w.

Lemma words_ok : forall n s, (length s <= n)%nat ->
  (forall prev cur, wordok cur -> Forall wordok (words_in prev cur s)) /\
  Forall wordok (words s).
Proof.
  assert (Hs : forall c, alnumb c = true -> wordok [lowerb c]).
  { intros c H. split; [discriminate|]. constructor; [apply lowerb_low_or_dig, H|constructor]. }
  induction n as [|n IH]; intros [|c r] Hlen; cbn [length] in Hlen; try lia.
  - split; [|constructor]. intros. cbn. auto.
  - split; [|constructor]. intros. cbn. auto.
  - destruct (IH r) as [Hin Hout]; [lia|]. split.
    + intros prev cur Hc. rewrite words_in_cons. destruct (alnumb c) eqn:Ha; [|constructor; auto].
      destruct (boundary prev c); [constructor; auto|].
      apply Hin. destruct Hc as [_ Hc]. split; [destruct cur; discriminate|].
      apply Forall_app. split; [exact Hc|]. constructor; [apply lowerb_low_or_dig, Ha|constructor].
    + cbn [words]. destruct (alnumb c) eqn:Ha; auto.
Qed.
Lemma words_all_ok s : Forall wordok (words s).
Proof. apply (words_ok (length s) s). lia. Qed.

Lemma join_okc ws : Forall wordok ws -> Forall okc (join ws).
Proof.
  induction ws as [|w ws IH]; intros H; [constructor|].
  inversion H as [|w' ws' Hw Hws]; subst. rewrite join_cons.
  apply Forall_app. split.
  - destruct Hw as [_ Hw]. eapply Forall_impl; [|exact Hw]. unfold okc. tauto.
  - destruct ws as [|x ws]; [constructor|].
    specialize (IH Hws). rewrite join_cons in IH. unfold tail_of. cbn [map concat app].
    constructor; [unfold okc; auto|exact IH].
Qed.

Lemma leading_okc s : Forall okc (leading s).
Proof.
  destruct s as [|c r]; cbn; [constructor|].
  assert (H : Forall okc [underscore]) by (constructor; [unfold okc; auto|constructor]).
  destruct (c =? underscore); [exact H|]. destruct (alnumb c); [constructor|].
  destruct r as [|d r]; [constructor|]. destruct (alnumb d); [constructor|exact H].
Qed.

Lemma sanitize_spec s : sanitize_name s = sanitized s.
Proof.
  destruct s as [|c r]; [reflexivity|].
  unfold sanitize_name, sanitized.
  assert (Hok : Forall okc (leading (c :: r) ++ join (words (c :: r)))).
  { apply Forall_app. split; [apply leading_okc|apply join_okc, words_all_ok]. }
  rewrite <- (fix_first_eq _ Hok). f_equal.
  cbn [san_loop]. unfold san_step. cbn [acc prev_is_lower prev_is_underscore Nat.eqb Nat.ltb Nat.leb].
  cbn [negb orb]. rewrite alnum_eq.
  change underscore with us in *. cbn [leading words]. change underscore with us.
  destruct (c =? us) eqn:Ec.
  - assert (Ha : alnumb c = false).
    { destruct (alnumb c) eqn:E; [|reflexivity]. apply alnum_not_us in E. congruence. }
    rewrite Ha, loop_spec. pose proof (tout_words r) as Ht.
    change [us] with (rev [us]). rewrite <- rev_app_distr.
    destruct (words r) as [|w ws].
    + rewrite Ht. reflexivity.
    + exact (strip_renders [us] _ _ Ht).
  - destruct (alnumb c) eqn:Ha.
    + rewrite andb_false_r. cbn [andb]. rewrite loop_spec, low_eq.
      change [lowerb c] with (rev [lowerb c]). rewrite <- rev_app_distr.
      exact (strip_renders [] _ _ (tin_words r c [lowerb c] (ends_ok_single c Ha))).
    + rewrite andb_false_r. cbn [andb]. rewrite loop_spec.
      rewrite app_nil_r. destruct r as [|d r]; [reflexivity|].
      rewrite tin_cons. cbn [words]. destruct (alnumb d) eqn:Hd.
      * rewrite andb_false_r. cbn [app].
        exact (strip_renders [] _ _ (tin_words r d [lowerb d] (ends_ok_single d Hd))).
      * pose proof (tout_words r) as Ht. destruct (words r) as [|w ws].
        -- rewrite Ht. reflexivity.
        -- exact (strip_renders [us] _ _ Ht).
Qed.

(** Normal form of the specification's text. *)
Lemma no_double_intro s :
  (forall a b, s = a ++ us :: b -> match b with d :: _ => d <> us | [] => True end) -> no_double s.
Proof. intros H a b E. specialize (H a (us :: b) E). cbn in H. congruence. Qed.

Lemma word_no_us w : wordok w -> ~ In us w.
Proof.
  intros [_ H] Hin. rewrite Forall_forall in H. specialize (H _ Hin).
  unfold letter_low, digit, us in H. lia.
Qed.

Lemma app_us_cases (w t a b : list N) : ~ In us w -> w ++ t = a ++ us :: b ->
  exists a', a = w ++ a' /\ t = a' ++ us :: b.
Proof.
  revert a. induction w as [|x w IH]; intros a Hn E.
  - exists a. auto.
  - destruct a as [|y a].
    + cbn in E. inversion E; subst. exfalso. apply Hn. left. reflexivity.
    + cbn in E. inversion E; subst. destruct (IH a) as (a' & E1 & E2); [intros H; apply Hn; right; exact H|assumption|].
      exists a'. subst. auto.
Qed.

Lemma join_no_adjacent ws : Forall wordok ws ->
  (forall a b, join ws = a ++ us :: b -> a <> [] /\ b <> [] /\ match b with d :: _ => d <> us | [] => True end).
Proof.
  induction ws as [|w ws IH]; intros Hw a b E.
  - destruct a; discriminate E.
  - inversion Hw as [|w' ws' H1 H2]; subst. rewrite join_cons in E.
    apply app_us_cases in E; [|apply word_no_us, H1]. destruct E as (a' & -> & E).
    destruct ws as [|x ws]; [destruct a'; discriminate E|].
    assert (Et : tail_of (x :: ws) = us :: join (x :: ws)) by (rewrite join_cons; reflexivity).
    rewrite Et in E. clear Et.
    assert (Hwne : w <> []) by apply H1.
    destruct a' as [|y a'].
    + cbn [app] in E. assert (Eb : b = join (x :: ws)) by congruence. rewrite Eb, join_cons. split; [destruct w; [congruence|discriminate]|].
      inversion H2 as [|x' ws' Hx Hxs]; subst.
      destruct x as [|d x]; [destruct Hx; congruence|]. cbn. split; [discriminate|].
      intros ->. apply (word_no_us _ Hx). left. reflexivity.
    + assert (Ey : join (x :: ws) = a' ++ us :: b) by (cbn [app] in E; congruence). apply (IH H2) in Ey.
      split; [destruct w; [congruence|discriminate]|]. tauto.
Qed.

Lemma join_first ws : Forall wordok ws -> forall c r, join ws = c :: r -> c <> us.
Proof.
  intros H c r E ->. destruct (join_no_adjacent ws H [] r E) as [Hf _]. congruence.
Qed.

Lemma leading_cases s : leading s = [] \/ leading s = [us].
Proof.
  destruct s as [|c r]; cbn; auto. destruct (c =? underscore); auto.
  destruct (alnumb c); auto. destruct r as [|d r]; auto. destruct (alnumb d); auto.
Qed.

Lemma sanitized_normal s : snake_normal (sanitized s).
Proof.
  assert (Hws := words_all_ok s).
  assert (Hadj := join_no_adjacent _ Hws).
  assert (Hfirst := join_first _ Hws).
  assert (Hokj := join_okc _ Hws).
  assert (Hund : forall l, (forall a b, l = a ++ us :: b -> a <> [] /\ b <> [] /\ match b with d :: _ => d <> us | [] => True end) ->
            no_double (us :: l) /\ (forall r, us :: l = r ++ [underscore] -> r = [])).
  { intros l Hl. split.
    - intros a b E. destruct a as [|x a]; cbn in E; inversion E; subst.
      + destruct (Hl [] b eq_refl) as [H _]. congruence.
      + destruct (Hl a (us :: b) eq_refl) as (_ & _ & H). cbn in H. congruence.
    - intros r E. destruct r as [|x r]; [reflexivity|]. cbn in E. inversion E; subst.
      destruct (Hl r [] eq_refl) as (_ & H & _). congruence. }
  assert (Hno : forall l, (forall a b, l = a ++ us :: b -> a <> [] /\ b <> [] /\ match b with d :: _ => d <> us | [] => True end) ->
            no_double l /\ (forall r, l = r ++ [underscore] -> r = [])).
  { intros l Hl. split.
    - intros a b E. destruct (Hl a (us :: b) E) as (_ & _ & H). cbn in H. congruence.
    - intros r E. destruct (Hl r [] E) as (_ & H & _). congruence. }
  assert (Hus : Forall okc [us]) by (constructor; [unfold okc; auto|constructor]).
  unfold sanitized. destruct (leading_cases s) as [->| ->]; cbn [app].
  - destruct (join (words s)) as [|c r] eqn:Ej.
    + repeat split.
      * constructor.
      * intros a b E. destruct a; discriminate E.
      * intros c r E. discriminate E.
      * intros r E. destruct r; discriminate E.
    + destruct ((48 <=? c) && (c <=? 57)) eqn:Ed.
      * destruct (Hund _ Hadj) as [H1 H2]. split; [|split; [exact H1|split; [|exact H2]]].
        -- change (Forall okc ([us] ++ c :: r)). apply Forall_app. auto.
        -- intros d t E. inversion E. unfold digit, underscore. lia.
      * destruct (Hno _ Hadj) as [H1 H2]. split; [exact Hokj|split; [exact H1|split; [|exact H2]]].
        intros d t E. inversion E; subst. unfold digit. lia.
  - change ((48 <=? us) && (us <=? 57)) with false. cbn match.
    destruct (Hund _ Hadj) as [H1 H2]. split; [|split; [exact H1|split; [|exact H2]]].
    + change (Forall okc ([us] ++ join (words s))). apply Forall_app. auto.
    + intros d t E. inversion E. unfold digit, us. lia.
Qed.

Lemma sanitize_snake s : snake_normal (sanitize_name s).
Proof. rewrite sanitize_spec. apply sanitized_normal. Qed.

Lemma snake_legal s : s <> [] -> snake_normal s -> legal_identifier s.
Proof.
  intros Hne (Hok & _ & Hd & _). destruct s as [|c r]; [congruence|]. cbn. split.
  - specialize (Hd c r eq_refl). inversion Hok; subst. tauto.
  - eapply Forall_impl; [|exact Hok]. cbn. tauto.
Qed.

(** Fixed points. *)
Lemma loop_id : forall s i a pl pu,
  Forall okc s -> no_double (rev a ++ s) ->
  (pu = true <-> exists a', a = us :: a') ->
  (i = 0%nat -> a = []) ->
  acc (san_loop i s {| acc := a; prev_is_lower := pl; prev_is_underscore := pu |}) = rev s ++ a.
Proof.
  induction s as [|c r IH]; intros i a pl pu Hok Hnd Hpu Hi; [reflexivity|].
  inversion Hok as [|c' r' Hc Hr]; subst.
  cbn [san_loop]. unfold san_step. cbn [acc prev_is_lower prev_is_underscore].
  destruct (N.eqb_spec c us) as [->|Hne].
  - assert (pu = false) as ->.
    { destruct pu; [|reflexivity]. destruct (proj1 Hpu eq_refl) as [a' ->].
      exfalso. cbn in Hnd. rewrite <- app_assoc in Hnd. apply (Hnd (rev a') r). reflexivity. }
    cbn [negb orb]. rewrite IH; auto.
    + cbn. rewrite <- app_assoc. reflexivity.
    + cbn [rev]. rewrite <- app_assoc. exact Hnd.
    + split; [eauto|reflexivity].
    + discriminate.
  - assert (Ha : is_alnum c = true /\ is_up c = false /\ to_low c = c).
    { destruct Hc as [H|[H|H]]; [| |contradiction Hne];
        unfold letter_low, digit in H; unfold is_alnum, to_low, is_up, is_low, is_dig;
        destruct ((65 <=? c) && (c <=? 90)) eqn:E; lia. }
    destruct Ha as (Ha & Hu & Hl). rewrite Ha, Hu, Hl. cbn [andb].
    rewrite IH; auto.
    + cbn. rewrite <- app_assoc. reflexivity.
    + cbn [rev]. rewrite <- app_assoc. exact Hnd.
    + split; [discriminate|]. intros [a' E]. inversion E. contradiction.
    + discriminate.
Qed.

Lemma sanitize_id s : snake_normal s -> sanitize_name s = s.
Proof.
  intros (Hok & Hnd & Hd & Htr). destruct s as [|c r]; [reflexivity|].
  unfold sanitize_name. rewrite loop_id; auto; [|split; [discriminate|intros [a' E]; discriminate E]].
  rewrite app_nil_r.
  assert (Hs : strip_trailing (rev (c :: r)) = rev (c :: r)).
  { destruct (rev (c :: r)) as [|d l] eqn:E; [reflexivity|].
    destruct (N.eq_dec d us) as [->|Hne]; [|apply strip_non_us, Hne].
    destruct l as [|e l]; [reflexivity|]. exfalso.
    apply (f_equal (@rev N)) in E. rewrite rev_involutive in E. cbn in E.
    specialize (Htr _ E). destruct (rev l); discriminate Htr. }
  rewrite Hs, rev_involutive. rewrite fix_first_eq by exact Hok.
  specialize (Hd c r eq_refl). unfold digit in Hd.
  destruct ((48 <=? c) && (c <=? 57)) eqn:E; [lia|reflexivity].
Qed.

Lemma sanitize_fixed_iff s : sanitize_name s = s <-> snake_normal s.
Proof.
  split; [|apply sanitize_id]. intros E. rewrite <- E. apply sanitize_snake.
Qed.

Lemma sanitize_idem s : sanitize_name (sanitize_name s) = sanitize_name s.
Proof. apply sanitize_id, sanitize_snake. Qed.

Lemma words_empty_iff s : words s = [] <-> Forall (fun c => alnumb c = false) s.
Proof.
  induction s as [|c r IH]; cbn; [split; [constructor|reflexivity]|].
  destruct (alnumb c) eqn:E.
  - split; [intros H; exfalso; eapply words_in_nonempty, H|].
    intros H. inversion H; congruence.
  - rewrite IH. split; [constructor; auto|]. intros H. inversion H; auto.
Qed.

Lemma join_empty_iff ws : Forall wordok ws -> (join ws = [] <-> ws = []).
Proof.
  intros H. split; [|intros ->; reflexivity]. destruct ws as [|w ws]; [reflexivity|].
  rewrite join_cons. intros E. apply app_eq_nil in E. inversion H as [|? ? [Hw _] _]; subst. tauto.
Qed.

Lemma sanitize_empty_iff s :
  sanitize_name s = [] <-> s = [] \/ exists c, s = [c] /\ alnumb c = false /\ c <> us.
Proof.
  rewrite sanitize_spec. split.
  - unfold sanitized. intros H.
    assert (E : leading s ++ join (words s) = []).
    { destruct (leading s ++ join (words s)) as [|c r]; [reflexivity|].
      destruct ((48 <=? c) && (c <=? 57)); discriminate H. }
    apply app_eq_nil in E. destruct E as [El Ej].
    apply join_empty_iff in Ej; [|apply words_all_ok].
    apply words_empty_iff in Ej. destruct s as [|c r]; [auto|].
    inversion Ej as [|? ? Hc Hr]; subst. cbn in El.
    destruct (N.eqb_spec c underscore) as [->|Hne]; [discriminate|]. rewrite Hc in El.
    destruct r as [|d r]; [right; exists c; auto|].
    inversion Hr as [|? ? Hd _]; subst. rewrite Hd in El. discriminate.
  - intros [->|(c & -> & Hc & Hne)]; [reflexivity|].
    unfold sanitized. cbn. rewrite Hc.
    destruct (N.eqb_spec c underscore); [contradiction|reflexivity].
Qed.
