From Verif Require Import Util Names_Model.
From Coq Require Import ZifyBool ZifyN ZifyNat FinFun.

(** The part of [b] after prefix [a], if [a] is a prefix. *)
Fixpoint strip_prefix (a b : string) : option string :=
  match a, b with
  | EmptyString, _ => Some b
  | String x a', String y b' => if Ascii.eqb x y then strip_prefix a' b' else None
  | _, _ => None
  end.
Lemma strip_prefix_app a e : strip_prefix a (a ++ e) = Some e.
Proof. induction a; cbn; [reflexivity|]. rewrite Ascii.eqb_refl. exact IHa. Qed.

Definition no_digit_extension (t t' : string) : bool :=
  match strip_prefix (lower t) (lower t') with
  | Some e => if string_forall is_digit e then String.eqb t t' else true
  | None => true
  end.
Lemma node_types_check :
  forallb (fun t => forallb (no_digit_extension t) node_types) node_types = true.
Proof. vm_compute. reflexivity. Qed.

Lemma digit_extension t t' e : In t node_types -> In t' node_types ->
  string_forall is_digit e = true -> lower t' = (lower t ++ e)%string -> t = t'.
Proof.
  intros H H' He E. pose proof node_types_check as C.
  rewrite forallb_forall in C. specialize (C t H). rewrite forallb_forall in C. specialize (C t' H').
  unfold no_digit_extension in C. rewrite E, strip_prefix_app, He in C.
  apply String.eqb_eq in C. exact C.
Qed.

Lemma type_name_eq t c : type_name t c = (lower t ++ dec c)%string.
Proof. unfold type_name, lower. rewrite string_map_app. f_equal. apply lower_dec. Qed.

Lemma type_name_inj t t' c c' : In t node_types -> In t' node_types ->
  type_name t c = type_name t' c' -> t = t' /\ c = c'.
Proof.
  intros H H' E. rewrite !type_name_eq in E.
  assert (Et : t = t').
  { destruct (string_app_split _ _ _ _ E) as [[e [E1 E2]]|[e [E1 E2]]].
    - symmetry. apply (digit_extension t' t e); auto.
      pose proof (dec_digits c') as D. rewrite E2, string_forall_app in D.
      apply andb_true_iff in D. tauto.
    - apply (digit_extension t t' e); auto.
      pose proof (dec_digits c) as D. rewrite E2, string_forall_app in D.
      apply andb_true_iff in D. tauto. }
  subst t'. split; [reflexivity|]. apply string_app_inj_l in E. apply dec_inj, E.
Qed.

Lemma counter_set r t c t' :
  counter (set_counter r t c) t' = if String.eqb t t' then Some c else counter r t'.
Proof. reflexivity. Qed.

Definition cur (r : registry) (t : string) : N := match counter r t with Some c => c | None => 0%N end.
Lemma bump_cur r t : bump r t = (cur r t + 1)%N.
Proof. unfold bump, cur. destruct (counter r t); reflexivity. Qed.

Lemma generate_all_spec : forall ts r r' ns,
  Forall (fun t => In t node_types) ts ->
  generate_all r ts = (r', ns) ->
  NoDup ns /\ length ns = length ts /\
  (forall n, In n ns -> exists t c, In t ts /\ (cur r t < c <= cur r' t)%N /\ n = type_name t c) /\
  (forall t, (cur r t <= cur r' t)%N).
Proof.
  induction ts as [|t ts IH]; intros r r' ns Hts E.
  - cbn in E. inversion E; subst. repeat split; [constructor|intros n []|intros; lia].
  - cbn in E. destruct (generate_all _ ts) as [r2 ns2] eqn:E2. inversion E; subst; clear E.
    inversion Hts as [|? ? Ht Hts']; subst.
    apply IH in E2; [|exact Hts']. destruct E2 as (Hnd & Hlen & Hin & Hmono).
    assert (Hc : forall u, cur (set_counter r t (bump r t)) u = if String.eqb t u then bump r t else cur r u).
    { intros u. unfold cur at 1. rewrite counter_set. destruct (String.eqb t u); reflexivity. }
    repeat split.
    + constructor; [|exact Hnd]. intros H. apply Hin in H.
      destruct H as (u & c & Hu & Hr & En).
      apply type_name_inj in En; [|exact Ht|rewrite Forall_forall in Hts'; auto].
      destruct En as [<- <-]. rewrite Hc, String.eqb_refl in Hr. lia.
    + cbn. congruence.
    + intros n [<-|H].
      * exists t, (bump r t). split; [left; reflexivity|]. split; [|reflexivity].
        specialize (Hmono t). rewrite Hc, String.eqb_refl in Hmono. rewrite bump_cur in *. lia.
      * apply Hin in H. destruct H as (u & c & Hu & Hr & En). exists u, c.
        split; [right; exact Hu|]. split; [|exact En]. rewrite Hc in Hr.
        destruct (String.eqb_spec t u) as [->|]; [rewrite bump_cur in Hr|]; lia.
    + intros u. specialize (Hmono u). rewrite Hc in Hmono.
      destruct (String.eqb_spec t u) as [->|]; [rewrite bump_cur in Hmono|]; lia.
Qed.

Lemma generate_all_nodup r ts r' ns :
  Forall (fun t => In t node_types) ts -> generate_all r ts = (r', ns) -> NoDup ns.
Proof. intros H E. eapply generate_all_spec; eassumption. Qed.

(** Interleaving of several users of the shared registry: continuing from the
    returned registry is one longer history. *)
Lemma generate_all_app r ts1 ts2 :
  generate_all r (ts1 ++ ts2) =
  let '(r1, n1) := generate_all r ts1 in
  let '(r2, n2) := generate_all r1 ts2 in (r2, n1 ++ n2).
Proof.
  revert r. induction ts1 as [|t ts1 IH]; intros r.
  - cbn. destruct (generate_all r ts2). reflexivity.
  - cbn. rewrite IH. destruct (generate_all _ ts1) as [r1 n1].
    destruct (generate_all r1 ts2) as [r2 n2]. reflexivity.
Qed.

(** Output names. *)
Definition no_us (s : string) : bool := string_forall (fun c => negb (Ascii.eqb c "_")) s.
Lemma node_types_no_us : forallb (fun t => no_us (lower t)) node_types = true.
Proof. vm_compute. reflexivity. Qed.
Lemma digits_no_us s : string_forall is_digit s = true -> no_us s = true.
Proof.
  unfold no_us. induction s as [|c r IH]; cbn; [reflexivity|].
  rewrite !andb_true_iff. intros [H1 H2]. split; [|apply IH, H2].
  destruct (Ascii.eqb_spec c "_") as [->|]; [discriminate H1|reflexivity].
Qed.
Lemma type_name_no_us t c : In t node_types -> no_us (type_name t c) = true.
Proof.
  intros H. rewrite type_name_eq. unfold no_us. rewrite string_forall_app. apply andb_true_iff. split.
  - pose proof node_types_no_us as C. rewrite forallb_forall in C. apply (C t H).
  - apply digits_no_us, dec_digits.
Qed.

Lemma us_split a b x y : no_us a = true -> no_us b = true ->
  (a ++ String "_" x = b ++ String "_" y)%string -> a = b /\ x = y.
Proof.
  revert b. induction a as [|c a IH]; intros b Ha Hb E.
  - destruct b as [|d b]; cbn in E; inversion E; subst; [auto|discriminate Hb].
  - destruct b as [|d b]; cbn in E; inversion E; subst; [discriminate Ha|].
    unfold no_us in *. cbn in Ha, Hb. apply andb_true_iff in Ha, Hb.
    destruct (IH b) as [-> ->]; tauto || auto.
Qed.

Lemma output_name_inj n n' k k' : no_us n = true -> no_us n' = true ->
  output_name n k = output_name n' k' -> n = n' /\ k = k'.
Proof.
  intros Hn Hn' E. unfold output_name in E. cbn [String.append] in E.
  apply us_split in E; [|assumption|assumption]. destruct E as [-> E].
  split; [reflexivity|]. inversion E as [E']. apply dec_inj, E'.
Qed.

Lemma output_names_distinct r ts r' ns i j n m k l :
  Forall (fun t => In t node_types) ts -> generate_all r ts = (r', ns) ->
  nth_error ns i = Some n -> nth_error ns j = Some m ->
  output_name n k = output_name m l -> i = j /\ k = l.
Proof.
  intros Hts E Hi Hj En.
  destruct (generate_all_spec _ _ _ _ Hts E) as (Hnd & _ & Hin & _).
  assert (Hno : forall x, In x ns -> no_us x = true).
  { intros x Hx. apply Hin in Hx. destruct Hx as (t & c & Ht & _ & ->).
    apply type_name_no_us. rewrite Forall_forall in Hts. auto. }
  apply output_name_inj in En; [|apply Hno; eapply nth_error_In; eassumption..].
  destruct En as [-> ->]. split; [|reflexivity].
  eapply NoDup_nth_error; [exact Hnd| |congruence].
  apply nth_error_Some. congruence.
Qed.

(** Root graph: initializer constants plus converted nodes. *)
Lemma root_names_nodup n ts r' ns :
  Forall (fun t => In t node_types) ts ->
  generate_all (root_counters n) ts = (r', ns) ->
  NoDup (initializer_names n ++ ns).
Proof.
  intros Hts E.
  assert (Hcon : In "Constant"%string node_types) by (apply mem_str_In; vm_compute; reflexivity).
  assert (Hi : forall x, In x (initializer_names n) -> exists c, (0 < c <= N.of_nat n)%N /\ x = type_name "Constant" c).
  { intros x Hx. apply in_map_iff in Hx. destruct Hx as (k & <- & Hk). apply in_seq in Hk.
    exists (N.of_nat k + 1)%N. split; [lia|]. rewrite type_name_eq. reflexivity. }
  destruct (generate_all_spec _ _ _ _ Hts E) as (Hnd & _ & Hin & _).
  assert (Hd : forall x, In x (initializer_names n) -> ~ In x ns).
  { intros x Hx Hns. apply Hi in Hx. destruct Hx as (c & Hc & ->).
    apply Hin in Hns. destruct Hns as (t & c' & Ht & Hr & En).
    apply type_name_inj in En; [|exact Hcon|rewrite Forall_forall in Hts; auto].
    destruct En as [<- <-]. unfold root_counters in Hr. destruct (0 <? n)%nat eqn:En; [|lia].
    change (cur (set_counter [] "Constant" (N.of_nat n)) "Constant") with (N.of_nat n) in Hr. lia. }
  assert (Hni : NoDup (initializer_names n)).
  { unfold initializer_names. apply Injective_map_NoDup; [|apply seq_NoDup].
    intros a b Eab. apply (string_app_inj_l "constant") in Eab. apply dec_inj in Eab. lia. }
  clear -Hd Hnd Hni. induction (initializer_names n) as [|x l IH]; [exact Hnd|].
  inversion Hni; subst. cbn. constructor.
  - rewrite in_app_iff. intros [Hx|Hx]; [contradiction|]. apply (Hd x); [left; reflexivity|exact Hx].
  - apply IH; [intros y Hy; apply Hd; right; exact Hy|assumption].
Qed.

(** A generated output name: lower-case type, number, "_out", number. *)
Lemma generated_output_shape r ts r' ns n k :
  Forall (fun t => In t node_types) ts -> generate_all r ts = (r', ns) -> In n ns ->
  exists t c, In t node_types /\ output_name n k = (lower t ++ dec c ++ "_out" ++ dec k)%string.
Proof.
  intros Hts E Hn. destruct (generate_all_spec _ _ _ _ Hts E) as (_ & _ & Hin & _).
  apply Hin in Hn. destruct Hn as (t & c & Ht & _ & ->). exists t, c.
  split; [rewrite Forall_forall in Hts; auto|]. unfold output_name. rewrite type_name_eq.
  rewrite string_app_assoc. reflexivity.
Qed.

Lemma known_types ts : forallb (fun t => mem_str t node_types) ts = true ->
  Forall (fun t => In t node_types) ts.
Proof.
  intros H. apply Forall_forall. intros t Ht. apply mem_str_In.
  rewrite forallb_forall in H. exact (H t Ht).
Qed.

(** Subgraph registries. *)
Lemma set_initial_cur r t c u : cur (set_initial_counter r t c) u =
  if (0 <? c)%N then if String.eqb t u then c else cur r u else cur r u.
Proof.
  unfold set_initial_counter. destruct (0 <? c)%N; [|reflexivity].
  unfold cur at 1. rewrite counter_set. destruct (String.eqb t u); reflexivity.
Qed.

Lemma subgraph_cur local t u : t <> u ->
  cur (subgraph_registry local t) u = match counter local u with Some c => (c + 1)%N | None => 0%N end.
Proof.
  intros Hne. unfold subgraph_registry. rewrite set_initial_cur.
  change (0 <? 1)%N with true. cbv iota. destruct (String.eqb_spec t u) as [|_]; [contradiction|].
  induction local as [|[k c] l IH]; [reflexivity|]. cbn [fold_right counter]. rewrite set_initial_cur.
  replace (0 <? c + 1)%N with true by (symmetry; apply N.ltb_lt; lia).
  destruct (String.eqb_spec k u); [reflexivity|exact IH].
Qed.

Lemma subgraph_fresh n_init before t sub local names r' subn :
  Forall (fun u => In u node_types) (before ++ sub) -> ~ In t sub ->
  generate_all (root_counters n_init) before = (local, names) ->
  generate_all (subgraph_registry local t) sub = (r', subn) ->
  NoDup (initializer_names n_init ++ names ++ subn).
Proof.
  intros Hts Ht E Es. apply Forall_app in Hts. destruct Hts as [Hb Hs].
  pose proof (root_names_nodup _ _ _ _ Hb E) as Hroot.
  destruct (generate_all_spec _ _ _ _ Hb E) as (_ & _ & Hin & Hmono).
  destruct (generate_all_spec _ _ _ _ Hs Es) as (Hnds & _ & Hins & _).
  assert (Hcon : In "Constant"%string node_types) by (apply mem_str_In; vm_compute; reflexivity).
  assert (Hold : forall x, In x (initializer_names n_init ++ names) ->
            exists u c, In u node_types /\ (0 < c <= cur local u)%N /\ x = type_name u c).
  { intros x Hx. apply in_app_iff in Hx. destruct Hx as [Hx|Hx].
    - apply in_map_iff in Hx. destruct Hx as (k & <- & Hk). apply in_seq in Hk.
      exists "Constant"%string, (N.of_nat k + 1)%N. split; [exact Hcon|]. split; [|rewrite type_name_eq; reflexivity].
      split; [lia|]. etransitivity; [|apply Hmono]. unfold root_counters.
      destruct (0 <? n_init)%nat eqn:En; [|lia].
      change (cur (set_counter [] "Constant" (N.of_nat n_init)) "Constant") with (N.of_nat n_init). lia.
    - apply Hin in Hx. destruct Hx as (u & c & Hu & Hc & ->). exists u, c.
      split; [rewrite Forall_forall in Hb; auto|]. split; [lia|reflexivity]. }
  rewrite app_assoc. clear -Hroot Hold Hins Hnds Hs Ht.
  induction (initializer_names n_init ++ names) as [|x l IH]; [exact Hnds|].
  inversion Hroot; subst. cbn. constructor.
  - rewrite in_app_iff. intros [Hx|Hx]; [contradiction|].
    destruct (Hold x (or_introl eq_refl)) as (u & c & Hu & Hc & ->).
    apply Hins in Hx. destruct Hx as (u' & c' & Hu' & Hc' & En).
    apply type_name_inj in En; [|exact Hu|rewrite Forall_forall in Hs; auto].
    destruct En as [<- <-]. rewrite subgraph_cur in Hc'.
    + unfold cur in Hc. destruct (counter local u); lia.
    + intros <-. exact (Ht Hu').
  - apply IH; [assumption|]. intros y Hy. apply Hold. right. exact Hy.
Qed.
