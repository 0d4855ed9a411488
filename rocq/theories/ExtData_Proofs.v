From Verif Require Import Util ExtData_Model ExtData_Spec.
From Coq Require Import ZifyBool ZifyN ZifyNat FinFun.

(** ** Decimal parsing *)
Lemma pow10_pos n : (0 < 10 ^ n)%N.
Proof. apply N.neq_0_lt_0. apply N.pow_nonzero. discriminate. Qed.

Lemma parse_digits_spec : forall s v n,
  parse_digits s v = Some n <->
  (s = EmptyString /\ n = v) \/
  (s <> EmptyString /\ exists d, digits_value s = Some d /\
   n = (v * 10 ^ N.of_nat (String.length s) + d)%N /\ (n < 2 ^ 64)%N).
Proof.
  induction s as [|c r IH]; intros v n.
  - cbn. split.
    + intros H. inversion H. left. auto.
    + intros [[_ ->]|[H _]]; [reflexivity|congruence].
  - cbn [parse_digits]. change (digits_value (String c r)) with
      (if ((48 <=? N_of_ascii c) && (N_of_ascii c <=? 57))%N then
        match digits_value r with
        | Some v => Some ((N_of_ascii c - 48) * 10 ^ N.of_nat (String.length r) + v)%N
        | None => None end else None).
    unfold is_digit. destruct ((48 <=? N_of_ascii c) && (N_of_ascii c <=? 57))%N eqn:Ed.
    2:{ split; [discriminate|]. intros [[H _]|(_ & d & H & _)]; discriminate H. }
    assert (Hpow : (10 ^ N.of_nat (String.length (String c r)) = 10 * 10 ^ N.of_nat (String.length r))%N).
    { cbn [String.length]. rewrite Nat2N.inj_succ, N.pow_succ_r'. reflexivity. }
    set (k := (N_of_ascii c - 48)%N) in *. rewrite Hpow.
    pose proof (pow10_pos (N.of_nat (String.length r))) as Hp.
    remember (10 ^ N.of_nat (String.length r))%N as p eqn:Ep.
    split.
    + destruct ((10 * v + k <? 2 ^ 64)%N) eqn:El; [|discriminate].
      rewrite IH. intros [[-> ->]|(Hr & d & Hd & Hn & Hlt)].
      * right. split; [discriminate|]. change (N.of_nat (String.length EmptyString)) with 0%N in Ep.
        rewrite N.pow_0_r in Ep. subst p. cbn [digits_value]. exists (k * 1 + 0)%N.
        change (10 ^ N.of_nat (String.length EmptyString))%N with 1%N.
        split; [reflexivity|]. apply N.ltb_lt in El. split; [ring|exact El].
      * right. split; [discriminate|]. rewrite Hd. exists (k * p + d)%N.
        split; [reflexivity|]. split; [rewrite Hn; ring|exact Hlt].
    + intros [[H _]|(_ & d & Hd & Hn & Hlt)]; [discriminate H|].
      destruct (digits_value r) as [d'|] eqn:Er; [|discriminate Hd]. inversion Hd; subst d; clear Hd.
      assert (Hle : (10 * v + k <= n)%N).
      { rewrite Hn. replace (v * (10 * p) + (k * p + d'))%N with ((10 * v + k) * p + d')%N by ring. nia. }
      destruct (10 * v + k <? 2 ^ 64)%N eqn:El; [|lia].
      rewrite IH. destruct r as [|c' r'].
      * left. split; [reflexivity|]. change (N.of_nat (String.length EmptyString)) with 0%N in Ep.
        rewrite N.pow_0_r in Ep. cbn in Er. inversion Er; subst d'. rewrite Hn, Ep. ring.
      * right. split; [discriminate|]. exists d'. split; [reflexivity|]. split; [|exact Hlt].
        rewrite Hn. ring.
Qed.

Lemma digits_no_plus r : digits_value (String "+" r) = None.
Proof. reflexivity. Qed.

Lemma parse_u64_spec s n : parse_u64 s = Some n <-> denotes s n /\ (n < 2 ^ 64)%N.
Proof.
  assert (Hd : forall ds, ds <> EmptyString ->
     (parse_digits ds 0 = Some n <-> digits_value ds = Some n /\ (n < 2 ^ 64)%N)).
  { intros ds Hne. rewrite parse_digits_spec. split.
    - intros [[H _]|(_ & d & H1 & H2 & H3)]; [contradiction|].
      rewrite N.mul_0_l, N.add_0_l in H2. subst d. auto.
    - intros [H1 H2]. right. split; [exact Hne|]. exists n. split; [exact H1|]. split; [lia|exact H2]. }
  unfold denotes. destruct s as [|c r].
  - cbn. split; [discriminate|]. intros [(ds & Hne & [E|E] & _) _]; congruence.
  - cbn [parse_u64]. destruct (Ascii.eqb_spec c "+") as [->|Hc].
    + destruct r as [|c' r'].
      * split; [discriminate|]. intros [(ds & Hne & [E|E] & Hv) _]; [|congruence].
        subst ds. discriminate Hv.
      * rewrite Hd by discriminate. split.
        -- intros [H1 H2]. split; [|exact H2]. exists (String c' r'). split; [discriminate|]. auto.
        -- intros [(ds & Hne & [E|E] & Hv) Hlt].
           ++ subst ds. rewrite digits_no_plus in Hv. discriminate Hv.
           ++ inversion E; subst. auto.
    + rewrite Hd by discriminate. split.
      * intros [H1 H2]. split; [|exact H2]. exists (String c r). split; [discriminate|]. auto.
      * intros [(ds & Hne & [E|E] & Hv) Hlt]; [subst; auto|]. inversion E. contradiction.
Qed.

Lemma denotes_fun s n m : denotes s n -> denotes s m -> n = m.
Proof.
  intros (d1 & N1 & E1 & V1) (d2 & N2 & E2 & V2).
  assert (d1 = d2).
  { destruct E1 as [E1|E1], E2 as [E2|E2]; subst; try congruence.
    - rewrite digits_no_plus in V1. discriminate.
    - rewrite digits_no_plus in V2. discriminate. }
  subst. congruence.
Qed.

(** ** Metadata loop *)
Definition lookup_last (key : string) (es : list (string * string)) : option string :=
  fold_left (fun o e => if String.eqb (fst e) key then Some (snd e) else o) es None.

Lemma last_entry_cons_other e es key v :
  fst e <> key -> (last_entry (e :: es) key v <-> last_entry es key v).
Proof.
  intros Hne. split.
  - intros (b & a & E & Ha). destruct b as [|x b]; cbn in E; inversion E; subst; [cbn in Hne; congruence|].
    exists b, a. auto.
  - intros (b & a & E & Ha). exists (e :: b), a. subst. auto.
Qed.

Lemma last_entry_fun es key v w : last_entry es key v -> last_entry es key w -> v = w.
Proof.
  intros (b1 & a1 & E1 & H1) (b2 & a2 & E2 & H2). subst es.
  revert b2 E2. induction b1 as [|x b1 IH]; intros b2 E2; destruct b2 as [|y b2]; cbn in E2; inversion E2; subst.
  - reflexivity.
  - exfalso. apply H1. exists w. apply in_app_iff. right. left. reflexivity.
  - exfalso. apply H2. exists v. apply in_app_iff. right. left. reflexivity.
  - eapply IH; eassumption.
Qed.

Lemma key_dec es key : (exists v, last_entry es key v) \/ ~ exists v, In (key, v) es.
Proof.
  induction es as [|[k w] es IH].
  - right. intros [v []].
  - destruct IH as [[v (b & a & E & Ha)]|Hn].
    + left. exists v, ((k, w) :: b), a. subst. auto.
    + destruct (String.eqb_spec k key) as [->|Hne].
      * left. exists w, [], es. auto.
      * right. intros [v [H|H]]; [inversion H; congruence|]. apply Hn. exists v. exact H.
Qed.

Lemma last_entry_hd key w es : (~ exists v, In (key, v) es) -> last_entry ((key, w) :: es) key w.
Proof. intros H. exists [], es. auto. Qed.
Lemma last_entry_tl e es key v : last_entry es key v -> last_entry (e :: es) key v.
Proof. intros (b & a & E & Ha). exists (e :: b), a. subst. auto. Qed.

Definition pick {A} (es : list (string * string)) (key : string) (R : string -> A -> Prop) (d x : A) : Prop :=
  (exists v, last_entry es key v /\ R v x) \/ ((~ exists v, In (key, v) es) /\ x = d).

Lemma pick_cons_other {A} e es key (R : string -> A -> Prop) d x : fst e <> key ->
  (pick (e :: es) key R d x <-> pick es key R d x).
Proof.
  intros Hne. unfold pick. split.
  - intros [(v & Hv & Hr)|[Hn ->]].
    + left. exists v. split; [|exact Hr]. eapply last_entry_cons_other; eassumption.
    + right. split; [|reflexivity]. intros [v Hv]. apply Hn. exists v. right. exact Hv.
  - intros [(v & Hv & Hr)|[Hn ->]].
    + left. exists v. split; [|exact Hr]. apply last_entry_tl. exact Hv.
    + right. split; [|reflexivity]. intros [v [H|H]].
      * subst e. cbn in Hne. congruence.
      * apply Hn. exists v. exact H.
Qed.

Lemma pick_cons_same {A} w es key (R : string -> A -> Prop) d d' x :
  R w d' -> (forall y, R w y -> y = d') ->
  (pick ((key, w) :: es) key R d x <-> pick es key R d' x).
Proof.
  intros Hr Hf. unfold pick. split.
  - intros [(v & Hv & Hx)|[Hn _]].
    + destruct (key_dec es key) as [[u Hu]|Hn].
      * left. exists v. split; [|exact Hx].
        rewrite (last_entry_fun _ _ _ _ Hv (last_entry_tl _ _ _ _ Hu)). exact Hu.
      * right. split; [exact Hn|].
        rewrite (last_entry_fun _ _ _ _ Hv (last_entry_hd _ w _ Hn)) in Hx. auto.
    + exfalso. apply Hn. exists w. left. reflexivity.
  - intros [(v & Hv & Hx)|[Hn ->]].
    + left. exists v. split; [apply last_entry_tl, Hv|exact Hx].
    + left. exists w. split; [apply last_entry_hd, Hn|exact Hr].
Qed.

Lemma ext_loop_spec : forall es st st',
  ext_loop es st = inl st' <->
  (forall key v, In (key, v) es -> key = "offset"%string \/ key = "length"%string ->
     exists k, denotes v k /\ (k < 2 ^ 64)%N) /\
  pick es "location" (fun v x => x = Some v) (x_loc st) (x_loc st') /\
  pick es "offset" denotes (x_off st) (x_off st') /\
  pick es "length" (fun v x => exists k, denotes v k /\ x = Some k) (x_len st) (x_len st') /\
  pick es "checksum" (fun v x => x = Some v) (x_sum st) (x_sum st').
Proof.
  induction es as [|[key value] es IH]; intros st st'.
  - cbn. unfold pick. split.
    + intros H. inversion H; subst.
      split; [intros ? ? []|].
      repeat split; right; (split; [intros [v []]|reflexivity]).
    + intros (_ & H1 & H2 & H3 & H4). f_equal. destruct st, st'; cbn in *.
      f_equal;
      [ destruct H1 as [(v & (b & a & E & _) & _)|[_ ->]]
      | destruct H2 as [(v & (b & a & E & _) & _)|[_ ->]]
      | destruct H3 as [(v & (b & a & E & _) & _)|[_ ->]]
      | destruct H4 as [(v & (b & a & E & _) & _)|[_ ->]] ]; try reflexivity;
      destruct b; discriminate E.
  - assert (Hall : forall (P : Prop), (key = "offset"%string \/ key = "length"%string -> exists k, denotes value k /\ (k < 2 ^ 64)%N) ->
      ((forall k v, In (k, v) ((key, value) :: es) -> k = "offset"%string \/ k = "length"%string ->
         exists n, denotes v n /\ (n < 2 ^ 64)%N) /\ P <->
       (forall k v, In (k, v) es -> k = "offset"%string \/ k = "length"%string ->
         exists n, denotes v n /\ (n < 2 ^ 64)%N) /\ P)).
    { intros P H0. split; intros [H HP]; (split; [|exact HP]); intros k v Hin.
      - apply H. right. exact Hin.
      - destruct Hin as [E|Hin]; [inversion E; subst; exact H0|apply H; exact Hin]. }
    cbn [ext_loop].
    destruct (String.eqb_spec key "location") as [->|N1].
    { rewrite IH; cbn [x_loc x_off x_len x_sum]. rewrite Hall by (intros [?|?]; discriminate).
      rewrite (pick_cons_same value es "location" _ (x_loc st) (Some value)) by (congruence || auto).
      rewrite !pick_cons_other by (cbn; discriminate). reflexivity. }
    destruct (String.eqb_spec key "offset") as [->|N2].
    { destruct (parse_u64 value) as [v|] eqn:Ep.
      - apply parse_u64_spec in Ep. destruct Ep as [Hd Hlt].
        rewrite IH; cbn [x_loc x_off x_len x_sum]. rewrite Hall by eauto.
        rewrite (pick_cons_same value es "offset" _ (x_off st) v); [|exact Hd|intros y Hy; eapply denotes_fun; eassumption].
        rewrite !pick_cons_other by (cbn; discriminate). reflexivity.
      - split; [discriminate|]. intros [H _]. exfalso.
        destruct (H "offset"%string value) as (k & Hk); [left; reflexivity|auto|].
        apply parse_u64_spec in Hk. congruence. }
    destruct (String.eqb_spec key "length") as [->|N3].
    { destruct (parse_u64 value) as [v|] eqn:Ep.
      - apply parse_u64_spec in Ep. destruct Ep as [Hd Hlt].
        rewrite IH; cbn [x_loc x_off x_len x_sum]. rewrite Hall by eauto.
        rewrite (pick_cons_same value es "length" _ (x_len st) (Some v)).
        2:{ eauto. }
        2:{ intros y (k & Hk & ->). f_equal. eapply denotes_fun; eassumption. }
        rewrite !pick_cons_other by (cbn; discriminate). reflexivity.
      - split; [discriminate|]. intros [H _]. exfalso.
        destruct (H "length"%string value) as (k & Hk); [left; reflexivity|auto|].
        apply parse_u64_spec in Hk. congruence. }
    assert (Hno : key = "offset"%string \/ key = "length"%string -> exists k, denotes value k /\ (k < 2 ^ 64)%N)
      by (intros [?|?]; contradiction).
    destruct (String.eqb_spec key "checksum") as [->|N4].
    { rewrite IH; cbn [x_loc x_off x_len x_sum]. rewrite Hall by exact Hno.
      rewrite (pick_cons_same value es "checksum" _ (x_sum st) (Some value)) by (congruence || auto).
      rewrite !pick_cons_other by (cbn; discriminate). reflexivity. }
    rewrite IH. rewrite Hall by exact Hno. rewrite !pick_cons_other by (cbn; assumption). reflexivity.
Qed.

Lemma from_proto_entries_spec es loc off n sum :
  from_proto_entries es = inl {| location := loc; offset := off; len := n; checksum := sum |} <->
  entries_describe es loc off n sum.
Proof.
  unfold from_proto_entries, entries_describe.
  split.
  - destruct (ext_loop es ext_init) as [st|e] eqn:E; [|discriminate].
    apply ext_loop_spec in E. destruct (x_loc st) as [l|] eqn:El; [|discriminate].
    intros H. inversion H; subst; clear H.
    destruct E as (H0 & H1 & H2 & H3 & H4).
    split; [exact H0|]. split; [|split; [|split]].
    + destruct H1 as [(v & Hv & Hx)|[_ Hx]]; [congruence|discriminate Hx].
    + exact H2.
    + destruct H3 as [(v & Hv & k & Hk & Hx)|H3]; [left; eauto|right; exact H3].
    + exact H4.
  - intros (H0 & H1 & H2 & H3 & H4).
    assert (E : ext_loop es ext_init = inl {| x_loc := Some loc; x_off := off; x_len := n; x_sum := sum |}).
    { apply ext_loop_spec. split; [exact H0|]. cbn [x_loc x_off x_len x_sum]. split; [|split; [|split]].
      - left. eauto.
      - exact H2.
      - destruct H3 as [(v & k & Hv & Hk & Hx)|H3]; [left; eauto|right; exact H3].
      - exact H4. }
    rewrite E. reflexivity.
Qed.

Lemma from_proto_missing es :
  from_proto_entries es = inr MissingLocation <->
  (forall key v, In (key, v) es -> key = "offset"%string \/ key = "length"%string ->
     exists k, denotes v k /\ (k < 2 ^ 64)%N) /\
  ~ exists v, In ("location"%string, v) es.
Proof.
  unfold from_proto_entries. split.
  - destruct (ext_loop es ext_init) as [st|e] eqn:E.
    + apply ext_loop_spec in E. destruct E as (H0 & H1 & _).
      destruct (x_loc st) eqn:El; [discriminate|]. intros _. split; [exact H0|].
      destruct H1 as [(v & _ & Hx)|[H _]]; [discriminate Hx|exact H].
    + intros H. inversion H; subst. exfalso. revert E. generalize ext_init. clear.
      induction es as [|[k v] es IH]; intros st; cbn [ext_loop]; [discriminate|].
      repeat match goal with
      | |- context [if ?b then _ else _] => destruct b
      | |- context [match ?x with Some _ => _ | None => _ end] => destruct x
      end; try apply IH; discriminate.
  - intros [H0 H1].
    destruct (ext_loop es ext_init) as [st|e] eqn:E.
    + apply ext_loop_spec in E. destruct E as (_ & H2 & _).
      destruct H2 as [(v & (b & a & -> & _) & _)|[_ ->]]; [|reflexivity].
      exfalso. apply H1. exists v. apply in_app_iff. right. left. reflexivity.
    + exfalso. revert E. generalize ext_init. clear H1. revert H0.
      induction es as [|[k v] es IH]; intros H0 st; cbn [ext_loop]; [discriminate|].
      assert (H0' : forall key v, In (key, v) es -> key = "offset"%string \/ key = "length"%string ->
        exists k, denotes v k /\ (k < 2 ^ 64)%N) by (intros; eapply H0; [right|]; eassumption).
      destruct (String.eqb_spec k "location"); [apply IH, H0'|].
      destruct (String.eqb_spec k "offset") as [->|].
      { destruct (parse_u64 v) eqn:Ep; [apply IH, H0'|].
        destruct (H0 _ v (or_introl eq_refl) (or_introl eq_refl)) as [m Hn].
        apply parse_u64_spec in Hn. congruence. }
      destruct (String.eqb_spec k "length") as [->|].
      { destruct (parse_u64 v) eqn:Ep; [apply IH, H0'|].
        destruct (H0 _ v (or_introl eq_refl) (or_intror eq_refl)) as [m Hn].
        apply parse_u64_spec in Hn. congruence. }
      destruct (String.eqb_spec k "checksum"); apply IH, H0'.
Qed.

(** ** Paths *)
Lemma split_steps s : split_slash s = steps s.
Proof. reflexivity. Qed.

Lemma steps_nonempty s : steps s <> [].
Proof.
  induction s as [|c r IH]; cbn; [discriminate|].
  destruct (Ascii.eqb c "/"); [discriminate|]. destruct (steps r); discriminate.
Qed.

Lemma steps_app_slash a b : steps (a ++ String "/" b) = steps a ++ steps b.
Proof.
  induction a as [|c a IH]; [reflexivity|].
  cbn [String.append steps]. rewrite IH.
  destruct (Ascii.eqb c "/"); [reflexivity|].
  pose proof (steps_nonempty a) as Hne. destruct (steps a); [contradiction|reflexivity].
Qed.

Lemma last_slash base : last_char base = Some slash -> exists a, base = (a ++ "/")%string.
Proof.
  induction base as [|c r IH]; [discriminate|].
  cbn [last_char]. destruct r as [|d r].
  - intros H. inversion H; subst. exists EmptyString. reflexivity.
  - intros H. destruct (IH H) as [a E]. exists (String c a). rewrite E. reflexivity.
Qed.

Lemma walk_inside dir l : ~ In ".."%string l -> inside dir (fold_left walk_step l dir).
Proof.
  assert (G : forall l start, ~ In ".."%string l -> inside dir start -> inside dir (fold_left walk_step l start)).
  { clear l. induction l as [|x l IH]; intros start Hn Hs; [exact Hs|].
    cbn [fold_left]. apply IH; [intros H; apply Hn; right; exact H|].
    unfold walk_step. destruct (String.eqb x ""); [exact Hs|]. destruct (String.eqb x "."); [exact Hs|].
    destruct (String.eqb_spec x "..") as [->|]; [exfalso; apply Hn; left; reflexivity|].
    destruct Hs as [b ->]. exists (x :: b). reflexivity. }
  intros H. apply G; [exact H|exists []; reflexivity].
Qed.

Lemma no_parent_steps p :
  is_absolute p = false ->
  existsb (fun c => match c with ParentDir => true | _ => false end) (components p) = false ->
  ~ In ".."%string (steps p).
Proof.
  unfold components. rewrite split_steps. intros Ha. rewrite Ha.
  destruct (steps p) as [|q qs]; [intros _ []|].
  rewrite existsb_app. intros H. apply orb_false_iff in H. destruct H as [H1 H2].
  intros [->|Hin]; [discriminate H1|].
  assert (In ParentDir (flat_map (piece_component false) qs)).
  { apply in_flat_map. exists ".."%string. split; [exact Hin|left; reflexivity]. }
  assert (existsb (fun c => match c with ParentDir => true | _ => false end) (flat_map (piece_component false) qs) = true).
  { apply existsb_exists. exists ParentDir. auto. }
  congruence.
Qed.

Lemma place_join cwd base p : is_absolute p = false ->
  place cwd (path_join base p) = place (place cwd base) p.
Proof.
  intros Ha. unfold path_join. rewrite Ha.
  assert (Hrel : forall d, place d p = fold_left walk_step (steps p) d).
  { intros d. unfold place. destruct p as [|c p]; [reflexivity|]. cbn in Ha.
    change (Ascii.eqb c "/") with (Ascii.eqb c slash). rewrite Ha. reflexivity. }
  rewrite Hrel. destruct (last_char base) as [c|] eqn:El.
  - destruct (Ascii.eqb_spec c slash) as [->|Hc].
    + apply last_slash in El. destruct El as [a ->].
      rewrite string_app_assoc. unfold place.
      rewrite !steps_app_slash. change ("/" ++ p)%string with (String "/" p).
      rewrite steps_app_slash, !fold_left_app. cbn [steps fold_left walk_step String.eqb].
      destruct a as [|c a]; reflexivity.
    + unfold place. change ("/" ++ p)%string with (String "/" p).
      rewrite steps_app_slash, fold_left_app.
      destruct base as [|d base]; [discriminate El|]. reflexivity.
  - destruct base as [|c base].
    + cbn. apply Hrel.
    + exfalso. clear -El. revert c El. induction base as [|d r IH]; intros c El; [discriminate El|].
      apply (IH d). exact El.
Qed.

Lemma resolve_path_inside canon base loc p :
  resolve_path canon base loc = inl p ->
  forall cwd, inside (place cwd base) (place cwd p).
Proof.
  unfold resolve_path. destruct (contains_nul loc); [discriminate|].
  destruct (is_absolute loc) eqn:Ha; [discriminate|].
  destruct (existsb _ _) eqn:Ep; [discriminate|].
  intros H cwd. assert (Hp : p = path_join base loc).
  { destruct (canon base), (canon (path_join base loc)); try (inversion H; reflexivity).
    destruct (path_starts_with _ _); inversion H; reflexivity. }
  subst p. rewrite place_join by exact Ha.
  assert (Hrel : forall d, place d loc = fold_left walk_step (steps loc) d).
  { intros d. unfold place. destruct loc as [|c loc]; [reflexivity|]. cbn in Ha.
    change (Ascii.eqb c "/") with (Ascii.eqb c slash). rewrite Ha. reflexivity. }
  rewrite Hrel. apply walk_inside. apply no_parent_steps; assumption.
Qed.

Lemma resolve_path_canonical canon base loc p cb cr :
  resolve_path canon base loc = inl p -> canon base = Some cb -> canon p = Some cr ->
  exists rest, components cr = components cb ++ rest.
Proof.
  unfold resolve_path. destruct (contains_nul loc); [discriminate|].
  destruct (is_absolute loc) eqn:Ha; [discriminate|].
  destruct (existsb _ _) eqn:Ep; [discriminate|].
  intros H Hb Hr. rewrite Hb in H.
  assert (Hp : p = path_join base loc).
  { destruct (canon (path_join base loc)); try (inversion H; reflexivity).
    destruct (path_starts_with _ _); inversion H; reflexivity. }
  subst p. rewrite Hr in H. destruct (path_starts_with cr cb) eqn:E; [|discriminate H].
  unfold path_starts_with in E. revert E. generalize (components cr), (components cb). clear.
  intros l1 l2. revert l1. induction l2 as [|x l2 IH]; intros l1 E; [exists l1; reflexivity|].
  destruct l1 as [|y l1]; [discriminate E|]. cbn in E. apply andb_true_iff in E. destruct E as [E1 E2].
  destruct (IH _ E2) as [rest ->]. exists rest. cbn. f_equal.
  destruct x, y; try discriminate E1; try reflexivity. cbn in E1. apply String.eqb_eq in E1. congruence.
Qed.

(** Acceptance is decided by the location text and the canonicalisation only. *)
Lemma resolve_path_accepts canon base loc :
  contains_nul loc = false -> is_absolute loc = false -> ~ In ".."%string (steps loc) ->
  canon base = None \/ canon (path_join base loc) = None ->
  resolve_path canon base loc = inl (path_join base loc).
Proof.
  intros Hn Ha Hs Hc. unfold resolve_path. rewrite Hn, Ha.
  destruct (existsb _ _) eqn:Ep.
  - exfalso. apply existsb_exists in Ep. destruct Ep as (c & Hc' & E). destruct c; try discriminate E.
    unfold components in Hc'. rewrite split_steps, Ha in Hc'. destruct (steps loc) as [|q qs]; [destruct Hc'|].
    apply in_app_iff in Hc'.
    assert (G : forall f x, In ParentDir (piece_component f x) -> x = ".."%string).
    { intros f x. unfold piece_component. destruct (String.eqb x ""); [intros []|].
      destruct (String.eqb x "."). { destruct f; [intros [H|[]]; discriminate H|intros []]. }
      destruct (String.eqb_spec x ".."); [auto|]. intros [H|[]]. discriminate H. }
    destruct Hc' as [H|H].
    + apply G in H. subst. apply Hs. left. reflexivity.
    + apply in_flat_map in H. destruct H as (x & Hx & H). apply G in H. subst. apply Hs. right. exact Hx.
  - destruct Hc as [-> | ->]; [reflexivity|]. destruct (canon base); reflexivity.
Qed.

(** ** Byte ranges *)
Lemma firstn_skipn_range (content : list N) off n :
  (off + n <= N.of_nat (length content))%N ->
  is_range content off n (firstn (N.to_nat n) (skipn (N.to_nat off) content)).
Proof.
  intros H. exists (firstn (N.to_nat off) content), (skipn (N.to_nat n) (skipn (N.to_nat off) content)).
  split; [|split].
  - rewrite firstn_skipn, firstn_skipn. reflexivity.
  - rewrite firstn_length. lia.
  - rewrite firstn_length, skipn_length. lia.
Qed.

Lemma load_read_sound file off n bytes :
  load_external_read file off n = Loaded bytes ->
  exists content, file = Some content /\ ((n = 0%N /\ bytes = []) \/ is_range content off n bytes).
Proof.
  unfold load_external_read. destruct file as [content|]; [|discriminate].
  destruct (2 ^ 63 <=? off)%N; [discriminate|]. destruct (2 ^ 63 <=? n)%N; [discriminate|].
  destruct (_ <? n)%N eqn:E; [discriminate|]. intros H. inversion H; subst; clear H.
  exists content. split; [reflexivity|].
  destruct (N.eq_dec n 0) as [->|Hn]; [left; auto|]. right. apply firstn_skipn_range. lia.
Qed.

Lemma load_sound mm ov file cm off n bytes : (off < 2 ^ 64)%N -> (n < 2 ^ 64)%N ->
  load_external_data mm ov file cm off n = Loaded bytes ->
  exists content, file = Some content /\ ((n = 0%N /\ bytes = []) \/ is_range content off n bytes).
Proof.
  intros Ho Hnn. unfold load_external_data. destruct mm; [|apply load_read_sound].
  unfold load_external_mmap. destruct file as [content|]; [|apply load_read_sound].
  destruct cm; [|apply load_read_sound]. cbn [negb].
  destruct (ov && (2 ^ 64 <=? off + n)%N)%bool; [discriminate|].
  destruct (N.of_nat (length content) <? (off + n) mod 2 ^ 64)%N eqn:E1; [apply load_read_sound|].
  destruct ((off + n) mod 2 ^ 64 <? off)%N eqn:E2; [discriminate|].
  intros H. inversion H; subst; clear H. exists content. split; [reflexivity|].
  right. apply firstn_skipn_range.
  destruct (N.lt_ge_cases (off + n) (2 ^ 64)) as [Hlt|Hge].
  - rewrite N.mod_small in E1 by exact Hlt. lia.
  - assert (Em : ((off + n) mod 2 ^ 64 = off + n - 2 ^ 64)%N).
    { symmetry. apply (N.mod_unique _ _ 1); lia. }
    rewrite Em in E2. lia.
Qed.

Lemma load_complete mm ov content cm off n :
  (off + n <= N.of_nat (length content))%N -> (N.of_nat (length content) < 2 ^ 63)%N ->
  exists bytes, load_external_data mm ov (Some content) cm off n = Loaded bytes /\
                is_range content off n bytes.
Proof.
  intros H Hs.
  assert (Hread : load_external_read (Some content) off n =
            Loaded (firstn (N.to_nat n) (skipn (N.to_nat off) content))).
  { unfold load_external_read.
    destruct (2 ^ 63 <=? off)%N eqn:E1; [lia|]. destruct (2 ^ 63 <=? n)%N eqn:E2; [lia|].
    destruct (_ <? n)%N eqn:E3; [lia|reflexivity]. }
  exists (firstn (N.to_nat n) (skipn (N.to_nat off) content)).
  split; [|apply firstn_skipn_range, H].
  unfold load_external_data. destruct mm; [|exact Hread].
  unfold load_external_mmap. destruct cm; cbn [negb]; [|exact Hread].
  destruct (ov && (2 ^ 64 <=? off + n)%N)%bool eqn:E0.
  { apply andb_true_iff in E0. lia. }
  rewrite N.mod_small by lia.
  destruct (_ <? off + n)%N eqn:E1; [lia|]. destruct (off + n <? off)%N eqn:E2; [lia|reflexivity].
Qed.

Lemma load_agree ov ov' content cm cm' mm mm' off n :
  (off < 2 ^ 64)%N -> (n < 2 ^ 64)%N ->
  (match content with Some c => N.of_nat (length c) < 2 ^ 63 | None => True end)%N ->
  load_external_data mm ov content cm off n = load_external_data mm' ov' content cm' off n.
Proof.
  intros Ho Hn Hs.
  assert (G : forall mm ov cm, load_external_data mm ov content cm off n = load_external_read content off n).
  { clear -Ho Hn Hs. intros mm ov cm. unfold load_external_data. destruct mm; [|reflexivity].
    unfold load_external_mmap. destruct content as [c|]; [|reflexivity].
    destruct cm; [|reflexivity]. cbn [negb].
    destruct (N.lt_ge_cases (off + n) (2 ^ 64)) as [Hlt|Hge].
    - destruct (ov && (2 ^ 64 <=? off + n)%N)%bool eqn:E0; [apply andb_true_iff in E0; lia|].
      rewrite N.mod_small by exact Hlt.
      destruct (_ <? off + n)%N eqn:E1; [reflexivity|].
      destruct (off + n <? off)%N eqn:E2; [lia|].
      unfold load_external_read.
      destruct (2 ^ 63 <=? off)%N eqn:E3; [lia|]. destruct (2 ^ 63 <=? n)%N eqn:E4; [lia|].
      destruct (_ <? n)%N eqn:E5; [lia|reflexivity].
    - assert (Em : ((off + n) mod 2 ^ 64 = off + n - 2 ^ 64)%N)
        by (symmetry; apply (N.mod_unique _ _ 1); lia).
      assert (Hr : load_external_read (Some c) off n = Panicked).
      { unfold load_external_read.
        destruct (2 ^ 63 <=? off)%N eqn:E3; [reflexivity|]. destruct (2 ^ 63 <=? n)%N eqn:E4; [reflexivity|].
        lia. }
      rewrite Hr. destruct (ov && (2 ^ 64 <=? off + n)%N)%bool; [reflexivity|].
      destruct (_ <? _)%N; [reflexivity|]. rewrite Em.
      destruct (off + n - 2 ^ 64 <? off)%N eqn:E2; [reflexivity|lia]. }
  rewrite !G. reflexivity.
Qed.

(** ** Store *)
Section StoreProofs.
  Context {D : Type}.
  Implicit Types (s : tensor_store D) (ds : list D).

  Definition store_inv s : Prop := forall id d, In (id, d) (data s) -> (id < next_id s)%N.

  Lemma assoc_none (l : list (N * D)) id : (forall d, ~ In (id, d) l) -> assoc l id = None.
  Proof.
    induction l as [|[k d] l IH]; intros H; [reflexivity|]. cbn.
    destruct (N.eqb_spec k id) as [->|]; [exfalso; eapply H; left; reflexivity|].
    apply IH. intros d' Hd. eapply H. right. exact Hd.
  Qed.

  Lemma store_all_spec ds : forall s s' ids, store_inv s -> store_all s ds = (s', ids) ->
    store_inv s' /\ next_id s' = (next_id s + N.of_nat (length ds))%N /\
    ids = map (fun k => (next_id s + N.of_nat k)%N) (seq 0 (length ds)) /\
    (forall id, (id < next_id s)%N -> get s' id = get s id) /\
    (forall k d, nth_error ds k = Some d -> get s' (next_id s + N.of_nat k)%N = Some d) /\
    (forall id, (next_id s' <= id)%N -> get s' id = None).
  Proof.
    induction ds as [|d ds IH]; intros s s' ids Hinv E.
    - cbn in E. inversion E; subst. repeat split; auto; cbn.
      + lia.
      + intros k d H. destruct k; discriminate H.
      + intros id Hid. apply assoc_none. intros d Hd. apply Hinv in Hd. lia.
    - cbn in E. destruct (store_all _ ds) as [s2 ids2] eqn:E2. inversion E; subst; clear E.
      apply IH in E2.
      2:{ intros id d' [H|H]; cbn.
          - inversion H; subst. lia.
          - apply Hinv in H. lia. }
      cbn in E2. destruct E2 as (H1 & H2 & H3 & H4 & H5 & H6).
      repeat split; auto.
      + cbn [length]. lia.
      + cbn [length seq map]. f_equal; [lia|]. rewrite H3.
        rewrite <- seq_shift, map_map. apply map_ext. intros k. lia.
      + intros id Hid. rewrite H4 by lia. unfold get. cbn.
        destruct (N.eqb_spec (next_id s) id); [lia|reflexivity].
      + intros [|k] d' Hk.
        * cbn in Hk. inversion Hk; subst. rewrite N.add_0_r. rewrite H4 by lia.
          unfold get. cbn. rewrite N.eqb_refl. reflexivity.
        * cbn in Hk. specialize (H5 k d' Hk). rewrite <- H5. f_equal. lia.
  Qed.

  Lemma store_history ds s ids : store_all store_new ds = (s, ids) ->
    NoDup ids /\ length ids = length ds /\
    (forall k id d, nth_error ids k = Some id -> nth_error ds k = Some d -> get s id = Some d) /\
    (forall id, ~ In id ids -> get s id = None).
  Proof.
    intros E. apply store_all_spec in E; [|intros id d []].
    cbn in E. destruct E as (_ & H2 & H3 & _ & H5 & H6). repeat split.
    - rewrite H3. apply Injective_map_NoDup; [|apply seq_NoDup]. intros a b. lia.
    - rewrite H3, map_length, seq_length. reflexivity.
    - intros k id d Hk Hd. rewrite H3 in Hk.
      assert (Hlt : k < length ds) by (apply nth_error_Some; congruence).
      assert (Hid : id = N.of_nat k).
      { rewrite nth_error_map in Hk. destruct (nth_error (seq 0 (length ds)) k) as [j|] eqn:Ej; [|discriminate Hk].
        cbn in Hk. inversion Hk. apply (nth_error_nth _ _ 0) in Ej. rewrite seq_nth in Ej by exact Hlt. lia. }
      subst id. specialize (H5 k d Hd). exact H5.
    - intros id Hid. destruct (N.lt_ge_cases id (next_id s)) as [Hlt|Hge]; [|apply H6, Hge].
      exfalso. apply Hid. rewrite H3. apply in_map_iff. exists (N.to_nat id).
      split; [lia|]. apply in_seq. lia.
  Qed.

  (** Earlier lookups are not affected by later stores. *)
  Lemma store_stable ds1 ds2 s1 ids1 s2 ids2 :
    store_all store_new ds1 = (s1, ids1) -> store_all s1 ds2 = (s2, ids2) ->
    forall id, In id ids1 -> get s2 id = get s1 id.
  Proof.
    intros E1 E2 id Hid. apply store_all_spec in E1; [|intros i d []].
    destruct E1 as (Hinv & Hn & Hids & _). apply store_all_spec in E2; [|exact Hinv].
    destruct E2 as (_ & _ & _ & H & _). apply H. rewrite Hids in Hid. cbn in Hid, Hn.
    apply in_map_iff in Hid. destruct Hid as (k & <- & Hk). apply in_seq in Hk. lia.
  Qed.
End StoreProofs.
