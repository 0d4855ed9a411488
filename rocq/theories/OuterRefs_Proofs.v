(** Proofs about outer-scope references. *)
From Verif Require Import IR_Model IR_Proofs Names_Model Import_Model OuterRefs_Model OuterRefs_Spec.

Lemma gproto_ind2 (P : gproto -> Prop) :
  (forall ins outs inits nodes, (forall nd sub, In nd nodes -> In sub (snd nd) -> P (snd sub)) -> P (GP ins outs inits nodes)) ->
  forall g, P g.
Proof.
  intros H. fix IH 1. intros [ins outs inits nodes]. apply H.
  induction nodes as [|[h subs] nodes IHn]; intros nd sub Hnd Hsub; [destruct Hnd|].
  destruct Hnd as [<-|Hnd]; [|exact (IHn nd sub Hnd Hsub)]. cbn in Hsub. clear -IH Hsub.
  induction subs as [|[a g] subs IHs]; [destruct Hsub|].
  destruct Hsub as [<-|Hsub]; [exact (IH g)|exact (IHs Hsub)].
Qed.

Lemma sans_In l y : In y (sans l) <-> exists x, In x l /\ x <> ""%string /\ y = san x.
Proof.
  unfold sans. rewrite in_map_iff. split.
  - intros (x & <- & Hx). apply filter_In in Hx. destruct Hx as [Hx Hn]. exists x. split; [exact Hx|]. split; [|reflexivity].
    intros ->. discriminate.
  - intros (x & Hx & Hn & ->). exists x. split; [reflexivity|]. apply filter_In. split; [exact Hx|].
    destruct (String.eqb_spec x ""); [contradiction|reflexivity].
Qed.

Lemma free_ne g x : free g x -> x <> ""%string.
Proof. induction 1; assumption. Qed.
Lemma free_occurs g x : free g x -> occurs g x.
Proof.
  induction 1.
  - eapply occ_node; [eassumption|]. left. assumption.
  - apply occ_out. assumption.
  - eapply occ_nested; eassumption.
Qed.
Lemma free_unbound g x : free g x -> ~ bound g x.
Proof. induction 1; assumption. Qed.

Definition produced_by (g : gproto) (x : string) : Prop := exists nd, In nd (gp_nodes g) /\ In x (h_out (fst nd)).
Definition apart_names (g : gproto) : Prop :=
  forall a b, occurs g a -> occurs g b -> a <> ""%string -> b <> ""%string -> san a = san b -> a = b.

Lemma sans_occ g l x : apart_names g -> (forall y, In y l -> occurs g y) -> occurs g x -> x <> ""%string ->
  (In (san x) (sans l) <-> In x l).
Proof.
  intros Ha Hl Hx Hn. rewrite sans_In. split; [|intros H; exists x; auto].
  intros (z & Hz & Hzn & E). rewrite (Ha x z Hx (Hl z Hz) Hn Hzn E). exact Hz.
Qed.

Lemma outer_input_occ g x : apart_names g -> occurs g x -> x <> ""%string ->
  outer_input (gp_init g) x = true <-> ~ In x (gp_init g).
Proof.
  intros Ha Hx Hn. unfold outer_input. destruct (String.eqb_spec x ""); [contradiction|]. cbn.
  rewrite negb_true_iff, mem_str_false. rewrite (sans_occ g); [reflexivity|assumption| |assumption|assumption].
  intros y Hy. apply occ_init. exact Hy.
Qed.

Lemma defined_occ g x : apart_names g -> occurs g x -> x <> ""%string ->
  In (san x) (defined_names (gp_in g) (gp_init g) (map fst (gp_nodes g))) <-> In x (gp_init g) \/ produced_by g x.
Proof.
  intros Ha Hx Hn. unfold defined_names. rewrite !in_app_iff.
  rewrite (sans_occ g (gp_init g) x Ha (fun y Hy => occ_init g y Hy) Hx Hn).
  assert (H3 : In (san x) (flat_map (fun h => sans (h_out h)) (map fst (gp_nodes g))) <-> produced_by g x).
  { rewrite in_flat_map. split.
    - intros (h & Hh & Hy). apply in_map_iff in Hh. destruct Hh as (nd & <- & Hnd). exists nd. split; [exact Hnd|].
      apply (sans_occ g (h_out (fst nd)) x Ha (fun z Hz => occ_node g nd z Hnd (or_intror Hz)) Hx Hn). exact Hy.
    - intros (nd & Hnd & Hy). exists (fst nd). split; [apply in_map, Hnd|].
      apply (sans_occ g); try assumption. intros z Hz. eapply occ_node; [exact Hnd|]. right. exact Hz. }
  rewrite H3. split; [|tauto]. intros [H|[H|H]]; [|tauto|tauto].
  apply in_map_iff in H. destruct H as (z & E & Hz). apply filter_In in Hz. destruct Hz as [Hz Hf].
  apply andb_true_iff in Hf. destruct Hf as [Hz1 Hz2].
  assert (Hzn : z <> ""%string) by (intros ->; discriminate).
  assert (Hzo : occurs g z) by (apply occ_in; exact Hz).
  assert (z = x) by (apply Ha; assumption). subst z.
  left. destruct (mem_str x (gp_init g)) eqn:Em; [apply mem_str_In; exact Em|]. exfalso.
  apply mem_str_false in Em. apply (outer_input_occ g x Ha Hx Hn) in Em. rewrite Em in Hz2. discriminate.
Qed.

Lemma is_body_spec op a : is_body op (fst a) (snd a) = true <-> loop_body op a.
Proof.
  unfold is_body, loop_body. destruct a as [n b]. cbn. rewrite !andb_true_iff, orb_true_iff, !String.eqb_eq.
  split; [intros [[-> H] ->]; auto|]. intros [H E]. inversion E; subst. auto.
Qed.

Lemma extract_exact : forall g, apart_names g -> scoped g ->
  forall y, In y (extract_refs g) <-> exists x, y = san x /\ (free g x \/ formal g x).
Proof.
  induction g as [ins outs inits nodes IH] using gproto_ind2. intros Ha Hs y.
  set (g := GP ins outs inits nodes) in *.
  assert (Hsub : forall nd sub, In nd nodes -> In sub (snd nd) ->
    (forall y, In y (extract_refs (snd sub)) <-> exists x, y = san x /\ (free (snd sub) x \/ formal (snd sub) x)) /\
    (forall x, occurs (snd sub) x -> occurs g x) /\
    (loop_body (h_op (fst nd)) (fst sub) \/ forall x, ~ formal (snd sub) x)).
  { intros nd sub Hnd Hsu. inversion Hs as [g' Hs' E]; subst g'. destruct (Hs' nd sub Hnd Hsu) as [Hs1 Hs2].
    assert (Ho : forall x, occurs (snd sub) x -> occurs g x) by (intros x Hx; eapply occ_nested; eassumption).
    split; [|split; [exact Ho|exact Hs2]]. apply (IH nd sub Hnd Hsu); [|exact Hs1].
    intros a b H1 H2. apply Ha; auto. }
  assert (Hdef : forall x, occurs g x -> x <> ""%string ->
    mem_str (san x) (defined_names ins inits (map fst nodes)) = false <-> ~ (In x inits \/ produced_by g x)).
  { intros x Hx Hn. rewrite mem_str_false. pose proof (defined_occ g x Ha Hx Hn) as Hdo. cbn [g gp_in gp_init gp_nodes] in Hdo.
    rewrite Hdo. reflexivity. }
  assert (Hfree : forall x, ~ (In x inits \/ produced_by g x) -> x <> ""%string -> (~ bound g x -> free g x) -> free g x \/ formal g x).
  { intros x Hd Hn Hf. destruct (mem_str x ins) eqn:Em.
    - right. apply mem_str_In in Em. split; [exact Em|]. split; [exact Hn|]. split; [tauto|]. intros Hp. apply Hd. right. exact Hp.
    - left. apply Hf. apply mem_str_false in Em. intros [H|[H|H]]; [contradiction|tauto|]. apply Hd. right. exact H. }
  unfold g at 1. cbn [extract_refs]. rewrite filter_In, !in_app_iff, negb_true_iff. split.
  - intros [Hr Hd]. destruct Hr as [Hr|[Hr|Hr]].
    + apply in_map_iff in Hr. destruct Hr as (x & <- & Hx). apply filter_In in Hx. destruct Hx as [Hx Ho].
      assert (Hn : x <> ""%string) by (intros ->; discriminate).
      assert (Hoc : occurs g x) by (apply occ_in; exact Hx).
      apply Hdef in Hd; [|assumption|assumption]. exists x. split; [reflexivity|]. right.
      split; [exact Hx|]. split; [exact Hn|]. split; [tauto|]. intros Hp. apply Hd. right. exact Hp.
    + apply in_flat_map in Hr. destruct Hr as (nd & Hnd & Hr). apply in_app_iff in Hr. destruct Hr as [Hr|Hr].
      * apply sans_In in Hr. destruct Hr as (x & Hx & Hn & ->).
        assert (Hoc : occurs g x) by (eapply occ_node; [exact Hnd|left; exact Hx]).
        apply Hdef in Hd; [|assumption|assumption]. exists x. split; [reflexivity|]. apply Hfree; [exact Hd|exact Hn|].
        intros Hb. eapply free_input; eassumption.
      * apply in_flat_map in Hr. destruct Hr as (sub & Hsu & Hr). apply filter_In in Hr. destruct Hr as [Hr Hf].
        apply andb_true_iff in Hf. destruct Hf as [_ Hf]. apply negb_true_iff in Hf.
        destruct (Hsub nd sub Hnd Hsu) as (IHs & Ho & Hsc). apply IHs in Hr. destruct Hr as (x & -> & Hx).
        destruct Hx as [Hx|Hx].
        -- pose proof (free_ne _ _ Hx) as Hn. pose proof (Ho x (free_occurs _ _ Hx)) as Hoc.
           apply Hdef in Hd; [|assumption|assumption]. exists x. split; [reflexivity|]. apply Hfree; [exact Hd|exact Hn|].
           intros Hb. eapply free_nested; eassumption.
        -- exfalso. destruct Hsc as [Hb|Hno]; [|exact (Hno x Hx)]. apply is_body_spec in Hb. rewrite Hb in Hf. cbn in Hf.
           apply mem_str_false in Hf. apply Hf. apply sans_In. exists x. destruct Hx as (Hx1 & Hx2 & _). auto.
    + apply sans_In in Hr. destruct Hr as (x & Hx & Hn & ->).
      assert (Hoc : occurs g x) by (apply occ_out; exact Hx).
      apply Hdef in Hd; [|assumption|assumption]. exists x. split; [reflexivity|]. apply Hfree; [exact Hd|exact Hn|].
      intros Hb. apply free_output; assumption.
  - intros (x & -> & Hx).
    assert (Hn : x <> ""%string) by (destruct Hx as [Hx|Hx]; [exact (free_ne _ _ Hx)|apply Hx]).
    assert (Hoc : occurs g x) by (destruct Hx as [Hx|Hx]; [exact (free_occurs _ _ Hx)|apply occ_in, Hx]).
    assert (Hnd : ~ (In x inits \/ produced_by g x)).
    { destruct Hx as [Hx|(H1 & _ & H3 & H4)].
      - pose proof (free_unbound _ _ Hx) as Hb. intros [H|H]; apply Hb; [right; left; exact H|right; right; exact H].
      - intros [H|H]; contradiction. }
    split; [|apply Hdef; assumption].
    destruct Hx as [Hx|(H1 & _ & H3 & H4)].
    + remember g as g0 eqn:Eg. destruct Hx as [g1 nd x Hnd' Hi _ _|g1 x Ho _ _|g1 nd sub x Hnd' Hsu Hf Hb]; subst g1.
      * right. left. apply in_flat_map. exists nd. split; [exact Hnd'|]. apply in_app_iff. left. apply sans_In. exists x. auto.
      * right. right. apply sans_In. exists x. auto.
      * right. left. apply in_flat_map. exists nd. split; [exact Hnd'|]. apply in_app_iff. right.
        apply in_flat_map. exists sub. split; [exact Hsu|]. apply filter_In.
        destruct (Hsub nd sub Hnd' Hsu) as (IHs & Ho & _). split; [apply IHs; exists x; auto|].
        apply andb_true_iff. split; [apply negb_true_iff, Hdef; assumption|].
        apply negb_true_iff, andb_false_iff. right. apply mem_str_false. intros Hin.
        apply sans_In in Hin. destruct Hin as (z & Hz & Hzn & E).
        assert (x = z) by (apply Ha; [assumption|apply Ho, occ_in; exact Hz|assumption|assumption|exact E]). subst z.
        apply (free_unbound _ _ Hf). left. exact Hz.
    + left. apply in_map_iff. exists x. split; [reflexivity|]. apply filter_In. split; [exact H1|].
      apply (outer_input_occ g x Ha Hoc Hn). exact H3.
Qed.

Lemma extract_branch g : apart_names g -> scoped g -> (forall x, ~ formal g x) ->
  forall y, In y (extract_refs g) <-> exists x, y = san x /\ free g x.
Proof.
  intros Ha Hs Hf y. rewrite (extract_exact g Ha Hs). split; intros (x & E & H); exists x; (split; [exact E|]).
  - destruct H as [H|H]; [exact H|]. exfalso. exact (Hf x H).
  - left. exact H.
Qed.

(** * What is recorded on the node *)
Lemma add_refs_spec resolve inputs : forall refs added names ins' names',
  NoDup refs ->
  map resolve names = added ->
  (forall y, In y refs -> ~ In y names) ->
  (forall y, In y refs -> ~ In y (map aname inputs)) ->
  (forall y z, In y refs -> In z (names ++ refs) -> aname (resolve z) = y -> z = y) ->
  add_refs resolve refs (inputs ++ added) names = (ins', names') ->
  names' = names ++ refs /\ ins' = inputs ++ map resolve names'.
Proof.
  induction refs as [|x refs IH]; intros added names ins' names' Hd Hm Hnew Hi Hr H; cbn in H.
  - inversion H; subst. rewrite app_nil_r. auto.
  - inversion Hd as [|? ? Hx Hd']; subst.
    destruct (existsb (fun i => String.eqb (aname i) x) (inputs ++ map resolve names)) eqn:Ee.
    + exfalso. apply existsb_exists in Ee. destruct Ee as (a & Ha & E). apply String.eqb_eq in E.
      apply in_app_iff in Ha. destruct Ha as [Ha|Ha].
      * apply (Hi x (or_introl eq_refl)). rewrite <- E. apply in_map, Ha.
      * apply in_map_iff in Ha. destruct Ha as (z & <- & Hz).
        assert (z = x) by (apply (Hr x z); [left; reflexivity|apply in_app_iff; left; exact Hz|exact E]). subst z.
        exact (Hnew x (or_introl eq_refl) Hz).
    + rewrite <- app_assoc in H. destruct (IH (map resolve names ++ [resolve x]) (names ++ [x]) ins' names') as [E1 E2]; try assumption.
      * rewrite map_app. reflexivity.
      * intros y Hy Hin. apply in_app_iff in Hin. destruct Hin as [Hin|[<-|[]]]; [|contradiction].
        apply (Hnew y (or_intror Hy) Hin).
      * intros y Hy. apply Hi. right. exact Hy.
      * intros y z Hy Hz. rewrite <- app_assoc in Hz. apply (Hr y z); [right; exact Hy|exact Hz].
      * rewrite <- app_assoc in E1. auto.
Qed.

Lemma zip_scope_get resolve : forall names m y, NoDup names ->
  sget (zip_scope names (map resolve names) m) y = if mem_str y names then Some (resolve y) else sget m y.
Proof.
  induction names as [|x names IH]; intros m y Hd; [reflexivity|]. inversion Hd; subst. cbn [map zip_scope].
  rewrite IH by assumption. destruct (mem_str y (x :: names)) eqn:Ey.
  - apply mem_str_In in Ey. destruct Ey as [<-|Ey].
    + replace (mem_str x names) with false by (symmetry; apply mem_str_false; assumption).
      rewrite sget_sput, String.eqb_refl. reflexivity.
    + apply mem_str_In in Ey. rewrite Ey. reflexivity.
  - apply mem_str_false in Ey. replace (mem_str y names) with false.
    + rewrite sget_sput. destruct (String.eqb_spec x y) as [->|]; [|reflexivity]. exfalso. apply Ey. left. reflexivity.
    + symmetry. apply mem_str_false. intros H. apply Ey. right. exact H.
Qed.

Lemma scope_exact resolve refs inputs y :
  NoDup refs -> (forall x, In x refs -> ~ In x (map aname inputs)) ->
  (forall x z, In x refs -> In z refs -> aname (resolve z) = x -> z = x) ->
  let rec := record_refs resolve refs inputs in
  firstn (snd (fst rec)) (fst (fst rec)) = inputs /\ snd rec = refs /\
  sget (outer_scope rec) y = (if mem_str y refs then Some (resolve y) else None).
Proof.
  intros Hd Hi Hr. unfold record_refs. cbn zeta.
  destruct (add_refs resolve refs inputs []) as [ins names] eqn:E.
  assert (E' : add_refs resolve refs (inputs ++ []) [] = (ins, names)) by (rewrite app_nil_r; exact E).
  destruct (add_refs_spec resolve inputs refs [] [] ins names) as [En Ei]; try assumption; try reflexivity; auto.
  cbn in En. subst names ins. cbn.
  assert (El : (length (inputs ++ map resolve refs) - length refs)%nat = length inputs).
  { rewrite app_length, map_length. lia. }
  rewrite El. split; [|split; [reflexivity|]].
  - rewrite firstn_app, firstn_all, Nat.sub_diag. cbn. apply app_nil_r.
  - rewrite skipn_app, skipn_all, Nat.sub_diag. cbn. rewrite zip_scope_get by exact Hd. reflexivity.
Qed.
