(** The simplifier keeps the values a run computes. *)
From Coq Require Import Lia ZifyBool ZifyNat.
From Flocq Require Import BinarySingleNaN.
From Verif Require Import IR_Model IR_Spec IR_Proofs Passes_Spec Passes_Proofs Fold_Spec Fold_Proofs Attention_Graph Permute_Proofs Simplify_Spec Simplify_Proofs.
Open Scope list_scope.

Notation fenv := (string -> option fdata).

(** * Facts about a graph that has run *)
Lemma producer_of_out nodes x : In x (outs_of nodes) -> exists m, In m nodes /\ In x (map aname (noutputs m)).
Proof. unfold outs_of. rewrite in_flat_map. intros (m & H1 & H2). exists m. auto. Qed.
Lemma out_of_producer nodes m x : In m nodes -> In x (map aname (noutputs m)) -> In x (outs_of nodes).
Proof. intros. unfold outs_of. apply in_flat_map. exists m. auto. Qed.

Lemma one_producer : forall nodes n m x, NoDup (outs_of nodes) -> In n nodes -> In m nodes ->
  In x (map aname (noutputs n)) -> In x (map aname (noutputs m)) -> n = m.
Proof.
  induction nodes as [|a l IH]; intros n m x Hd Hn Hm Hx Hy; [destruct Hn|]. unfold outs_of in Hd. cbn in Hd.
  destruct Hn as [<-|Hn], Hm as [<-|Hm]; [reflexivity| | |].
  - exfalso. eapply NoDup_app_disj; [exact Hd|exact Hx|]. apply (out_of_producer l m); assumption.
  - exfalso. eapply NoDup_app_disj; [exact Hd|exact Hy|]. apply (out_of_producer l n); assumption.
  - apply NoDup_app_r in Hd. eapply IH; eassumption.
Qed.

Lemma args_arg static (e : fenv) : forall l vs a, args_eval static e l = Some vs -> In a l -> exists v, arg_eval static e a = Some v.
Proof.
  induction l as [|b l IH]; intros vs a H Ha; [destruct Ha|]. cbn in H.
  destruct (arg_eval static e b) as [v|] eqn:E; [|discriminate]. destruct (args_eval static e l) as [ws|] eqn:El; [|discriminate].
  destruct Ha as [<-|Ha]; [eauto|]. eapply IH; [reflexivity|exact Ha].
Qed.

Lemma settled_mono nodes nodes' x : (forall n, In n nodes' -> In n nodes) -> settled nodes' x -> settled nodes x.
Proof.
  intros Hsub. induction 1 as [n x Hn Hx Ht|n x Hn Hx Hi IH].
  - eapply settled_shape; eauto.
  - eapply settled_node; eauto.
Qed.

Section Ran.
  Variable sem : string -> list (string * attr) -> nat -> list (option fdata) -> option (list fdata).
  Variable dbg : attr -> string.
  Variable s : store.
  Variables e0 ef : fenv.
  Variable nodes : list rnode.
  Hypothesis Hp : plain dbg s e0 nodes ef.
  Hypothesis Hr : run sem (st_get s) e0 nodes = Some ef.

  Lemma ran n : In n nodes -> holds sem (st_get s) ef n.
  Proof.
    intros Hn. pose proof (run_holds sem (st_get s) nodes e0 ef (p_ssa _ _ _ _ _ Hp) Hr) as H.
    rewrite Forall_forall in H. apply H; exact Hn.
  Qed.
  Lemma read n a : In n nodes -> In a (ninputs n) -> exists v, arg_eval (st_get s) ef a = Some v.
  Proof. intros Hn Ha. destruct (ran n Hn) as (vs & outs & H & _). eapply args_arg; eassumption. Qed.

  Lemma plain_linked : linked s nodes.
  Proof.
    intros n a id Hn Ha Hc Hid. destruct (p_registered _ _ _ _ _ Hp _ _ Hid) as [H0 Hm].
    destruct (read n a Hn Ha) as [v Hv]. unfold arg_eval in Hv. rewrite Hc in Hv.
    destruct (ef (aname a)) as [w|] eqn:Ew; [|discriminate].
    destruct (run_bound _ _ _ _ _ _ _ Hr Ew) as [K|K]; [congruence|].
    destruct (producer_of_out _ _ K) as (m & Hmn & Hx). destruct (Hm m Hmn Hx) as (i & o & T & I & S & O & N). exists m, i, o. auto 10.
  Qed.
  Lemma plain_apart : apart nodes.
  Proof.
    intros n i Hn Hi. pose proof (proj2 (p_apart _ _ _ _ _ Hp n Hn) i Hi) as K. destruct (asrc i); try exact I.
    - intros Hin. destruct (producer_of_out _ _ Hin) as (m & Hm & Hx). exact (K m Hm Hx).
    - intros Hin. destruct (producer_of_out _ _ Hin) as (m & Hm & Hx). apply in_map_iff in Hx. destruct Hx as (o & Ho & Hin').
      apply (proj1 (p_apart _ _ _ _ _ Hp m Hm) o Hin'). congruence.
  Qed.

  Hypothesis Hc : constants_mean sem.

  Lemma plain_knows : knows s nodes ef s.
  Proof. apply (knows_start sem s nodes e0 ef Hc (p_ssa _ _ _ _ _ Hp) Hr (p_store _ _ _ _ _ Hp) plain_linked). Qed.
  Lemma known_value n a d : In n nodes -> In a (ninputs n) -> st_value s a = Some d -> arg_eval (st_get s) ef a = Some (Some d).
  Proof.
    intros Hn Ha Hd. destruct (read n a Hn Ha) as [v Hv]. rewrite Hv. f_equal.
    exact (value_arg s nodes ef s n a d v plain_knows Hn Ha Hd Hv).
  Qed.
  Lemma plain_forward : forward_slices s nodes.
  Proof.
    intros n a v ks Hn Ht Hs Ha Hv Hk. assert (Hin : In a (ninputs n)) by (eapply nth_error_In; exact Ha).
    eapply (p_forward _ _ _ _ _ Hp); [exact Hn|exact Ht|exact Hs|exact Ha|exact (known_value n a v Hn Hin Hv)|exact Hk].
  Qed.
  Lemma plain_single_fold : single_outputs folded_ops nodes.
  Proof. intros n Hn Ht. apply (p_single _ _ _ _ _ Hp); [exact Hn|]. apply in_app_iff. left; exact Ht. Qed.
  Lemma plain_single_shape : single_outputs shape_ops nodes.
  Proof. intros n Hn Ht. apply (p_single _ _ _ _ _ Hp); [exact Hn|]. apply in_app_iff. right; exact Ht. Qed.
  Lemma plain_typed_fold : exactly_typed folded_ops nodes ef.
  Proof. intros n o r Hn Ht. apply (p_typed _ _ _ _ _ Hp); [exact Hn|]. apply in_app_iff. left; exact Ht. Qed.
  Lemma plain_typed_gather : exactly_typed ["Gather"%string] nodes ef.
  Proof. intros n o r Hn Ht. apply (p_typed _ _ _ _ _ Hp); [exact Hn|]. apply in_app_iff. right; exact Ht. Qed.
End Ran.

(** * Renaming inputs *)
Lemma rename_inputs_map r nodes : rename_inputs r nodes = map (rename_node r) nodes.
Proof.
  destruct r as [|kv r]; [|reflexivity]. cbn. rewrite <- (map_id nodes) at 1. apply map_ext. intros [t nm i o at_].
  unfold rename_node. cbn. f_equal. rewrite <- (map_id i) at 1. apply map_ext. reflexivity.
Qed.
Lemma rename_outs r nodes : outs_of (map (rename_node r) nodes) = outs_of nodes.
Proof. unfold outs_of. induction nodes as [|n l IH]; cbn; [reflexivity|]. rewrite IH. reflexivity. Qed.
Lemma rename_ty r a : aty (rename_arg r a) = aty a.
Proof. unfold rename_arg. destruct (sget r (aname a)); reflexivity. Qed.
Lemma rename_src r a : asrc (rename_arg r a) = asrc a.
Proof. unfold rename_arg. destruct (sget r (aname a)); reflexivity. Qed.

Section Renaming.
  Variable sem : string -> list (string * attr) -> nat -> list (option fdata) -> option (list fdata).
  Variable dbg : attr -> string.
  Variable s : store.
  Variables e0 ef : fenv.
  Variable nodes : list rnode.
  Hypothesis Hp : plain dbg s e0 nodes ef.
  Hypothesis Hr : run sem (st_get s) e0 nodes = Some ef.
  Variable r : smap string.
  Hypothesis Hres : respects r ef.
  Hypothesis Hkey : forall x y, sget r x = Some y -> In x (outs_of nodes) /\ y <> EmptyString.
  Hypothesis Hset : forall x y, sget r x = Some y -> settled nodes y -> settled nodes x.

  Let nodes' := map (rename_node r) nodes.

  Lemma rename_settled x : settled nodes' x -> settled nodes x.
  Proof.
    assert (Hback : forall i, settled nodes (aname (rename_arg r i)) -> settled nodes (aname i)).
    { intros i. unfold rename_arg. destruct (sget r (aname i)) as [y|] eqn:E; [|auto]. cbn. apply Hset; exact E. }
    induction 1 as [n x Hn Hx Ht|n x Hn Hx Hi IH]; unfold nodes' in Hn; apply in_map_iff in Hn; destruct Hn as (m & <- & Hm); cbn in Hx.
    - eapply settled_shape; [exact Hm|exact Hx|exact Ht].
    - eapply settled_node; [exact Hm|exact Hx|]. intros i Hin Hd. apply Hback. apply IH.
      + cbn. apply in_map; exact Hin.
      + rewrite rename_src; exact Hd.
  Qed.
  Lemma rename_settled_arg a : settled_arg nodes' (rename_arg r a) -> settled_arg nodes a.
  Proof.
    intros H Hd. specialize (H ltac:(rewrite rename_src; exact Hd)). apply rename_settled in H.
    unfold rename_arg in H. destruct (sget r (aname a)) as [y|] eqn:E; [|exact H]. cbn in H. exact (Hset _ _ E H).
  Qed.
  Lemma rename_settled_inputs n : settled_inputs nodes' (rename_node r n) -> settled_inputs nodes n.
  Proof.
    intros H i Hi Hd. apply rename_settled_arg; [|exact Hd]. intros Hd'. apply H; [cbn; apply in_map; exact Hi|exact Hd'].
  Qed.
  Lemma rename_value n a v : In n nodes -> In a (ninputs n) ->
    arg_eval (st_get s) ef (rename_arg r a) = Some v -> arg_eval (st_get s) ef a = Some v.
  Proof.
    intros Hn Ha Hv. destruct (read sem dbg s e0 ef nodes Hp Hr n a Hn Ha) as [w Hw].
    pose proof (rename_args_eval (st_get s) r ef Hres [a] [w]) as K. cbn in K. rewrite Hw in K. specialize (K eq_refl).
    rewrite Hv in K. congruence.
  Qed.
  Lemma rename_static_name n a : In n nodes -> In a (ninputs n) ->
    match asrc a with VStatic _ | VOptional => rename_arg r a = a | _ => True end.
  Proof.
    intros Hn Ha. pose proof (proj2 (p_apart _ _ _ _ _ Hp n Hn) a Ha) as K. unfold rename_arg.
    destruct (asrc a) eqn:Es; try exact I; (destruct (sget r (aname a)) as [y|] eqn:E; [|reflexivity]); exfalso;
      destruct (Hkey _ _ E) as [Hin _]; destruct (producer_of_out _ _ Hin) as (m & Hm & Hx).
    - exact (K m Hm Hx).
    - apply in_map_iff in Hx. destruct Hx as (o & Ho & Hin'). apply (proj1 (p_apart _ _ _ _ _ Hp m Hm) o Hin'). congruence.
  Qed.

  Lemma rename_plain : plain dbg s e0 nodes' ef.
  Proof.
    unfold nodes'. split.
    - unfold ssa. fold (outs_of (map (rename_node r) nodes)). rewrite rename_outs. exact (p_ssa _ _ _ _ _ Hp).
    - rewrite map_map. exact (p_names _ _ _ _ _ Hp).
    - intros n' Hn. apply in_map_iff in Hn. destruct Hn as (n & <- & Hn). cbn. split; [apply (p_apart _ _ _ _ _ Hp); exact Hn|].
      intros i' Hi. apply in_map_iff in Hi. destruct Hi as (i & <- & Hi). rewrite rename_src.
      pose proof (proj2 (p_apart _ _ _ _ _ Hp n Hn) i Hi) as K. pose proof (rename_static_name n i Hn Hi) as Kn.
      destruct (asrc i) eqn:Es.
      + rewrite Kn. intros m' Hm. apply in_map_iff in Hm. destruct Hm as (m & <- & Hm). exact (K m Hm).
      + unfold rename_arg. destruct (sget r (aname i)) as [y|] eqn:E; [apply (Hkey _ _ E)|exact K].
      + unfold rename_arg. destruct (sget r (aname i)) as [y|] eqn:E; [apply (Hkey _ _ E)|exact K].
      + rewrite Kn. exact K.
    - unfold suffix_free. fold (outs_of (map (rename_node r) nodes)). rewrite rename_outs. exact (p_suffix _ _ _ _ _ Hp).
    - exact (p_store _ _ _ _ _ Hp).
    - intros x id Hid. destruct (p_registered _ _ _ _ _ Hp x id Hid) as [H0 H]. split; [exact H0|].
      intros m' Hm Hx. apply in_map_iff in Hm. destruct Hm as (m & <- & Hm). destruct (H m Hm Hx) as (i & o & T & I & S & O & N).
      exists i, o. cbn. rewrite I. cbn. pose proof (rename_static_name m i Hm) as Kn. rewrite I, S in Kn.
      rewrite (Kn (or_introl eq_refl)). auto 10.
    - intros n' Hn Ht. apply in_map_iff in Hn. destruct Hn as (n & <- & Hn). exact (p_single _ _ _ _ _ Hp n Hn Ht).
    - intros n' o v Hn Ht Hs Ho Hv. apply in_map_iff in Hn. destruct Hn as (n & <- & Hn).
      exact (p_typed _ _ _ _ _ Hp n o v Hn Ht (rename_settled_inputs n Hs) Ho Hv).
    - intros n' i' more x sh Hn Ht Hi Hx Hsh. apply in_map_iff in Hn. destruct Hn as (n & <- & Hn). cbn in Ht, Hi.
      destruct (ninputs n) as [|i rest] eqn:Ei; [discriminate|]. cbn in Hi. injection Hi as <- _.
      apply (p_known _ _ _ _ _ Hp n i rest x sh Hn Ht Ei); [|rewrite rename_ty in Hsh; exact Hsh].
      apply (rename_value n); [exact Hn|rewrite Ei; left; reflexivity|exact Hx].
    - intros n' Hn Ht. apply in_map_iff in Hn. destruct Hn as (n & <- & Hn). exact (p_whole _ _ _ _ _ Hp n Hn Ht).
    - intros n' a' v ks Hn Ht Hs Ha Hv Hk. apply in_map_iff in Hn. destruct Hn as (n & <- & Hn). cbn [ninputs rename_node] in Ha.
      rewrite nth_error_map in Ha. destruct (nth_error (ninputs n) 4) as [a|] eqn:Ea; [|discriminate]. injection Ha as <-.
      apply (p_forward _ _ _ _ _ Hp n a v ks Hn Ht (rename_settled_inputs n Hs) Ea); [|exact Hk].
      apply (rename_value n); [exact Hn|eapply nth_error_In; exact Ea|exact Hv].
    - intros n' i' Hn Ht Hi. apply in_map_iff in Hn. destruct Hn as (n & <- & Hn). cbn in Hi. apply in_map_iff in Hi.
      destruct Hi as (i & <- & Hi). rewrite rename_src. exact (p_by_name _ _ _ _ _ Hp n i Hn Ht Hi).
    - intros n' a' b' o va vb vo Hn Hi Ho Ha Hb Hv. apply in_map_iff in Hn. destruct Hn as (n & <- & Hn). cbn in Hi, Ho.
      destruct (ninputs n) as [|a [|b [|]]] eqn:Ei; try discriminate. cbn in Hi. injection Hi as <- <-.
      assert (Hina : In a (ninputs n)) by (rewrite Ei; left; reflexivity). assert (Hinb : In b (ninputs n)) by (rewrite Ei; right; left; reflexivity).
      destruct (p_neutral _ _ _ _ _ Hp n a b o va vb vo Hn Ei Ho (rename_value n a _ Hn Hina Ha) (rename_value n b _ Hn Hinb Hb) Hv) as (N1 & N2 & N3 & N4).
      cbn [ntype rename_node]. repeat split; intros T S; apply rename_settled_arg in S; auto.
    - intros n' m' Hn Hm. apply in_map_iff in Hn. destruct Hn as (n & <- & Hn). apply in_map_iff in Hm. destruct Hm as (m & <- & Hm).
      exact (p_dbg _ _ _ _ _ Hp n m Hn Hm).
    - intros n' Hn. apply in_map_iff in Hn. destruct Hn as (n & <- & Hn). exact (p_attention _ _ _ _ _ Hp n Hn).
    - destruct (p_permute _ _ _ _ _ Hp) as (t & Ht & Habs). exists t. split; [exact Ht|].
      intros n' Hn. apply in_map_iff in Hn. destruct Hn as (n & <- & Hn). exact (Habs n Hn).
  Qed.
End Renaming.

(** * The renaming passes *)
Section RenamePasses.
  Variable sem : string -> list (string * attr) -> nat -> list (option fdata) -> option (list fdata).
  Variable dbg : attr -> string.
  Variable s : store.
  Variables e0 ef : fenv.
  Variable nodes : list rnode.
  Hypothesis Hp : plain dbg s e0 nodes ef.
  Hypothesis Hr : run sem (st_get s) e0 nodes = Some ef.

  Lemma idempotent_plain : idempotent_mean sem ->
    plain dbg s e0 (eliminate_idempotent_ops nodes) ef /\ run sem (st_get s) e0 (eliminate_idempotent_ops nodes) = Some ef.
  Proof.
    intros [L1 L2]. pose proof (p_apart _ _ _ _ _ Hp) as Hap. pose proof (p_ssa _ _ _ _ _ Hp) as Hssa. split.
    - unfold eliminate_idempotent_ops. rewrite rename_inputs_map.
      assert (Hent : forall x y, sget (idempotent_renames nodes) x = Some y ->
        exists n i o m, In n nodes /\ ninputs n = [i] /\ noutputs n = [o] /\ aname o = x /\ aname i = y /\ In m nodes /\ In y (map aname (noutputs m))).
      { intros x y Hxy. unfold idempotent_renames in Hxy. apply fold_entries in Hxy. destruct Hxy as [Hd|[n [Hn He]]]; [discriminate|].
        unfold idempotent_entry in He. destruct (mem_str (ntype n) idempotent_ops); [|discriminate].
        destruct (ninputs n) as [|i [|? ?]] eqn:Ei; try discriminate. destruct (noutputs n) as [|o [|? ?]] eqn:Eo; try discriminate.
        destruct (sget (producer_types nodes) (aname i)) as [t|] eqn:Ep; [|discriminate].
        destruct (String.eqb t (ntype n)); [|discriminate]. injection He as <- <-.
        apply producer_fold in Ep. destruct Ep as [Ed|[m [Hm [Hxm Htm]]]]; [discriminate|]. exists n, i, o, m. auto 10. }
      apply (rename_plain sem dbg s e0 ef nodes Hp Hr).
      + apply (idempotent_respects sem (st_get s) nodes e0 L1 L2 Hap Hssa nodes [] ef); [rewrite app_nil_r; reflexivity|exact Hr].
      + intros x y Hxy. destruct (Hent _ _ Hxy) as (n & i & o & m & Hn & Ei & Eo & Hx & Hy & Hm & Hym). split.
        * apply (out_of_producer nodes n); [exact Hn|]. rewrite Eo. left; exact Hx.
        * apply in_map_iff in Hym. destruct Hym as (o' & Ho' & Hin). rewrite <- Ho'. exact (proj1 (Hap m Hm) o' Hin).
      + intros x y Hxy Hsy. destruct (Hent _ _ Hxy) as (n & i & o & m & Hn & Ei & Eo & Hx & Hy & _ & _).
        eapply settled_node; [exact Hn|rewrite Eo; left; exact Hx|]. rewrite Ei. intros j [<-|[]] _. rewrite Hy. exact Hsy.
    - apply (idempotent_run sem (st_get s)); assumption.
  Qed.

  Lemma constant_value z a : (forall f, Beqb f (f64_of_Z z) = (if Z.eqb z 0 then eq_zero f else eq_one f)) ->
    is_constant_value (floats_of s) (if Z.eqb z 0 then eq_zero else eq_one) a = true ->
    exists d, st_value s a = Some d /\ all_equal z d.
  Proof.
    intros Hz H. unfold is_constant_value, floats_of in H. destruct (st_value s a) as [d|] eqn:Ed; [|discriminate].
    exists d. split; [reflexivity|]. destruct (to_f64_vec d) as [[|f l]|] eqn:El; try discriminate.
    exists (f :: l). split; [exact El|]. split; [discriminate|]. apply Forall_forall. intros g Hg. rewrite Hz.
    rewrite forallb_forall in H. specialize (H g Hg). destruct (Z.eqb z 0); exact H.
  Qed.

  (** What an entry of the identity pass says about the run. *)
  Lemma identity_means n x y : constants_mean sem -> In n nodes -> identity_entry (floats_of s) eq_zero eq_one n = Some (x, y) ->
    exists a b o k c va vb vo, ninputs n = [a; b] /\ noutputs n = [o] /\ aname o = x /\ aname k = y /\ ((k = a /\ c = b) \/ (k = b /\ c = a)) /\
      In (ntype n) arithmetic_ops /\ asrc c <> VDynamic /\
      arg_eval (st_get s) ef a = Some (Some va) /\ arg_eval (st_get s) ef b = Some (Some vb) /\ ef x = Some vo /\
      arg_eval (st_get s) ef k = Some (Some vo).
  Proof.
    intros Hc Hn He. unfold identity_entry in He.
    destruct (ninputs n) as [|a [|b [|]]] eqn:Ei; try discriminate. destruct (noutputs n) as [|o [|]] eqn:Eo; try discriminate.
    assert (Hina : In a (ninputs n)) by (rewrite Ei; left; reflexivity). assert (Hinb : In b (ninputs n)) by (rewrite Ei; right; left; reflexivity).
    destruct (ran sem dbg s e0 ef nodes Hp Hr n Hn) as (vs & outs & H1 & H2 & H3). unfold out_names in H3. rewrite Eo in H3.
    inversion H3 as [|? vo ? ? Hvo H4]; subst. inversion H4; subst. clear H3 H4.
    assert (Hval : In (ntype n) arithmetic_ops -> exists va vb, arg_eval (st_get s) ef a = Some (Some va) /\ arg_eval (st_get s) ef b = Some (Some vb)).
    { intros Hop. pose proof (p_by_name _ _ _ _ _ Hp n a Hn Hop Hina) as Sa. pose proof (p_by_name _ _ _ _ _ Hp n b Hn Hop Hinb) as Sb.
      destruct (read sem dbg s e0 ef nodes Hp Hr n a Hn Hina) as [wa Wa]. destruct (read sem dbg s e0 ef nodes Hp Hr n b Hn Hinb) as [wb Wb].
      assert (G : forall q w, asrc q = VDynamic \/ asrc q = VConstant -> arg_eval (st_get s) ef q = Some w -> exists v, w = Some v).
      { intros q w Sq Hq. unfold arg_eval in Hq. destruct Sq as [Sq|Sq]; rewrite Sq in Hq; destruct (ef (aname q)); cbn in Hq; try discriminate; injection Hq as <-; eauto. }
      destruct (G a wa Sa Wa) as [va ->]. destruct (G b wb Sb Wb) as [vb ->]. eauto. }
    assert (Hz0 : forall c, is_constant_value (floats_of s) eq_zero c = true -> exists d, st_value s c = Some d /\ all_equal 0 d).
    { intros c. apply (constant_value 0 c). reflexivity. }
    assert (Hz1 : forall c, is_constant_value (floats_of s) eq_one c = true -> exists d, st_value s c = Some d /\ all_equal 1 d).
    { intros c. apply (constant_value 1 c). reflexivity. }
    assert (Hnd : forall c d, st_value s c = Some d -> asrc c <> VDynamic).
    { intros c d Hd Hsrc. unfold st_value in Hd. rewrite Hsrc in Hd. discriminate. }
    assert (Hst : forall c d, st_value s c = Some d -> settled_arg nodes c).
    { intros c d Hd Hsrc. exfalso. exact (Hnd c d Hd Hsrc). }
    assert (Hfin : forall k c, ((k = a /\ c = b) \/ (k = b /\ c = a)) -> Some (aname o, aname k) = Some (x, y) -> In (ntype n) arithmetic_ops -> asrc c <> VDynamic ->
      (forall va vb, arg_eval (st_get s) ef a = Some (Some va) -> arg_eval (st_get s) ef b = Some (Some vb) -> arg_eval (st_get s) ef k = Some (Some vo)) ->
      exists a0 b0 o0 k0 c0 va vb vo0, [a; b] = [a0; b0] /\ [o] = [o0] /\ aname o0 = x /\ aname k0 = y /\ ((k0 = a0 /\ c0 = b0) \/ (k0 = b0 /\ c0 = a0)) /\
        In (ntype n) arithmetic_ops /\ asrc c0 <> VDynamic /\
        arg_eval (st_get s) ef a0 = Some (Some va) /\ arg_eval (st_get s) ef b0 = Some (Some vb) /\ ef x = Some vo0 /\
        arg_eval (st_get s) ef k0 = Some (Some vo0)).
    { intros k c Hk Hxy Hop Hcd Hkv. destruct (Hval Hop) as (va & vb & Va & Vb). injection Hxy as <- <-.
      exists a, b, o, k, c, va, vb, vo. split; [reflexivity|]. split; [reflexivity|]. split; [reflexivity|]. split; [reflexivity|].
      split; [exact Hk|]. split; [exact Hop|]. split; [exact Hcd|]. split; [exact Va|]. split; [exact Vb|]. split; [exact Hvo|]. eapply Hkv; eassumption. }
    assert (Hright : forall d z, st_value s b = Some d -> all_equal z d -> (z = 0%Z /\ In (ntype n) ["Add"; "Sub"]%string \/ z = 1%Z /\ In (ntype n) ["Mul"; "Div"; "Pow"]%string) ->
      Some (aname o, aname a) = Some (x, y) -> exists a0 b0 o0 k0 c0 va vb vo0, [a; b] = [a0; b0] /\ [o] = [o0] /\ aname o0 = x /\ aname k0 = y /\ ((k0 = a0 /\ c0 = b0) \/ (k0 = b0 /\ c0 = a0)) /\
        In (ntype n) arithmetic_ops /\ asrc c0 <> VDynamic /\
        arg_eval (st_get s) ef a0 = Some (Some va) /\ arg_eval (st_get s) ef b0 = Some (Some vb) /\ ef x = Some vo0 /\
        arg_eval (st_get s) ef k0 = Some (Some vo0)).
    { intros d z Hd Hall Ht Hxy. apply (Hfin a b); [left; auto|exact Hxy| |exact (Hnd _ _ Hd)|].
      - unfold arithmetic_ops. cbn. destruct Ht as [[_ Ht]|[_ Ht]]; cbn in Ht; intuition congruence.
      - intros va vb Va Vb. pose proof (known_value sem dbg s e0 ef nodes Hp Hr Hc n b d Hn Hinb Hd) as Kb. rewrite Vb in Kb. injection Kb as ->.
        destruct (p_neutral _ _ _ _ _ Hp n a b o va d vo Hn Ei Eo Va Vb Hvo) as (N1 & _ & N3 & _).
        destruct Ht as [[-> Ht]|[-> Ht]]; [rewrite (N1 Ht (Hst _ _ Hd) Hall)|rewrite (N3 Ht (Hst _ _ Hd) Hall)]; exact Va. }
    assert (Hleft : forall d z, st_value s a = Some d -> all_equal z d -> (z = 0%Z /\ ntype n = "Add"%string \/ z = 1%Z /\ ntype n = "Mul"%string) ->
      Some (aname o, aname b) = Some (x, y) -> exists a0 b0 o0 k0 c0 va vb vo0, [a; b] = [a0; b0] /\ [o] = [o0] /\ aname o0 = x /\ aname k0 = y /\ ((k0 = a0 /\ c0 = b0) \/ (k0 = b0 /\ c0 = a0)) /\
        In (ntype n) arithmetic_ops /\ asrc c0 <> VDynamic /\
        arg_eval (st_get s) ef a0 = Some (Some va) /\ arg_eval (st_get s) ef b0 = Some (Some vb) /\ ef x = Some vo0 /\
        arg_eval (st_get s) ef k0 = Some (Some vo0)).
    { intros d z Hd Hall Ht Hxy. apply (Hfin b a); [right; auto|exact Hxy| |exact (Hnd _ _ Hd)|].
      - unfold arithmetic_ops. cbn. destruct Ht as [[_ Ht]|[_ Ht]]; rewrite Ht; auto 10.
      - intros va vb Va Vb. pose proof (known_value sem dbg s e0 ef nodes Hp Hr Hc n a d Hn Hina Hd) as Ka. rewrite Va in Ka. injection Ka as ->.
        destruct (p_neutral _ _ _ _ _ Hp n a b o d vb vo Hn Ei Eo Va Vb Hvo) as (_ & N2 & _ & N4).
        destruct Ht as [[-> Ht]|[-> Ht]]; [rewrite (N2 Ht (Hst _ _ Hd) Hall)|rewrite (N4 Ht (Hst _ _ Hd) Hall)]; exact Vb. }
    cbv zeta in He.
    destruct (String.eqb_spec (ntype n) "Add") as [T|T]; cbn [orb andb] in He.
    { destruct (is_constant_value (floats_of s) eq_zero b) eqn:E1; [destruct (Hz0 _ E1) as (d & Hd & Hall); apply (Hright d 0%Z); try assumption; left; split; [reflexivity|rewrite T; left; reflexivity]|].
      destruct (is_constant_value (floats_of s) eq_zero a) eqn:E2; [|discriminate].
      destruct (Hz0 _ E2) as (d & Hd & Hall). apply (Hleft d 0%Z); try assumption. left; auto. }
    destruct (String.eqb_spec (ntype n) "Sub") as [T2|T2]; cbn [orb andb] in He.
    { destruct (is_constant_value (floats_of s) eq_zero b) eqn:E1; [|discriminate].
      destruct (Hz0 _ E1) as (d & Hd & Hall); apply (Hright d 0%Z); try assumption; left; split; [reflexivity|rewrite T2; right; left; reflexivity]. }
    destruct (String.eqb_spec (ntype n) "Mul") as [T3|T3].
    { destruct (is_constant_value (floats_of s) eq_one b) eqn:E1; [destruct (Hz1 _ E1) as (d & Hd & Hall); apply (Hright d 1%Z); try assumption; right; split; [reflexivity|rewrite T3; left; reflexivity]|].
      destruct (is_constant_value (floats_of s) eq_one a) eqn:E2; [|discriminate].
      destruct (Hz1 _ E2) as (d & Hd & Hall). apply (Hleft d 1%Z); try assumption. right; auto. }
    destruct (String.eqb_spec (ntype n) "Div") as [T4|T4].
    { destruct (is_constant_value (floats_of s) eq_one b) eqn:E1; [|discriminate].
      destruct (Hz1 _ E1) as (d & Hd & Hall); apply (Hright d 1%Z); try assumption; right; split; [reflexivity|rewrite T4; right; left; reflexivity]. }
    destruct (String.eqb_spec (ntype n) "Pow") as [T5|T5]; [|discriminate].
    destruct (is_constant_value (floats_of s) eq_one b) eqn:E1; [|discriminate].
    destruct (Hz1 _ E1) as (d & Hd & Hall); apply (Hright d 1%Z); try assumption; right; split; [reflexivity|rewrite T5; right; right; left; reflexivity].
  Qed.

  Lemma identity_plain : constants_mean sem ->
    plain dbg s e0 (eliminate_identity_elements (floats_of s) eq_zero eq_one nodes) ef /\
    run sem (st_get s) e0 (eliminate_identity_elements (floats_of s) eq_zero eq_one nodes) = Some ef.
  Proof.
    intros Hc. pose proof (p_apart _ _ _ _ _ Hp) as Hap. pose proof (p_ssa _ _ _ _ _ Hp) as Hssa.
    assert (Hlaw : forall p q (e : fenv) n x y, nodes = p ++ q -> run sem (st_get s) e0 p = Some e -> In n p ->
         identity_entry (floats_of s) eq_zero eq_one n = Some (x, y) ->
         holds sem (st_get s) e n -> exists v, e x = Some v /\ e y = Some v).
    { intros p q e n x y Heq Hrp Hn He Hh.
      assert (Hnn : In n nodes) by (rewrite Heq; apply in_app_iff; left; exact Hn).
      destruct (identity_means n x y Hc Hnn He) as (a & b & o & k & c & va & vb & vo & Ei & Eo & Hx & Hy & Hk & Hop & _ & Va & Vb & Vx & Vk).
      assert (Hmono : forall z v, e z = Some v -> ef z = Some v).
      { pose proof Hr as Hr'. rewrite Heq, run_app, Hrp in Hr'. intros z v Hz. eapply run_mono; [|exact Hr'|exact Hz].
        intros w Hw. rewrite Heq in Hssa. destruct Hssa as [Hnd Hf]. unfold outs_of in Hw.
        destruct (e w) as [u|] eqn:Eu; [|reflexivity]. exfalso.
        destruct (run_bound _ _ _ _ _ _ _ Hrp Eu) as [K|K].
        - rewrite (Hf w) in K; [discriminate|]. rewrite flat_map_app. apply in_app_iff. right; exact Hw.
        - rewrite flat_map_app in Hnd. eapply NoDup_app_disj; [exact Hnd|exact K|exact Hw]. }
      destruct Hh as (vs & outs & H1 & _ & H3). unfold out_names in H3. rewrite Eo in H3. inversion H3 as [|? w ? ? Hw _]; subst.
      exists w. split; [exact Hw|]. apply Hmono in Hw as Hw'. assert (w = vo) by congruence. subst w.
      assert (Hink : In k (ninputs n)) by (rewrite Ei; destruct Hk as [[-> _]|[-> _]]; cbn; auto).
      destruct (args_arg _ _ _ _ k H1 Hink) as [u Hu].
      pose proof (p_by_name _ _ _ _ _ Hp n k Hnn Hop Hink) as Sk.
      unfold arg_eval in Hu, Vk. destruct Sk as [Sk|Sk]; rewrite Sk in Hu, Vk; destruct (e (aname k)) as [u'|] eqn:Eu; try discriminate;
        apply Hmono in Eu as Eu'; rewrite Eu' in Vk; cbn in Vk; injection Vk as ->; reflexivity. }
    split.
    - unfold eliminate_identity_elements. rewrite rename_inputs_map.
      assert (Hent : forall x y, sget (identity_renames (floats_of s) eq_zero eq_one nodes) x = Some y ->
        exists n, In n nodes /\ identity_entry (floats_of s) eq_zero eq_one n = Some (x, y)).
      { intros x y Hxy. unfold identity_renames in Hxy. apply fold_entries in Hxy. destruct Hxy as [Hd|K]; [discriminate|exact K]. }
      apply (rename_plain sem dbg s e0 ef nodes Hp Hr).
      + apply (identity_respects sem (st_get s) _ _ _ nodes e0 Hlaw Hssa nodes [] ef); [rewrite app_nil_r; reflexivity|exact Hr].
      + intros x y Hxy. destruct (Hent _ _ Hxy) as (n & Hn & He).
        destruct (identity_means n x y Hc Hn He) as (a & b & o & k & c & va & vb & vo & Ei & Eo & Hx & Hy & Hk & Hop & _ & Va & Vb & Vx & Vk).
        assert (Hink : In k (ninputs n)) by (rewrite Ei; destruct Hk as [[-> _]|[-> _]]; cbn; auto). split.
        * apply (out_of_producer nodes n); [exact Hn|]. rewrite Eo. left; exact Hx.
        * rewrite <- Hy. pose proof (proj2 (Hap n Hn) k Hink) as Kn. destruct (p_by_name _ _ _ _ _ Hp n k Hn Hop Hink) as [Sk|Sk]; rewrite Sk in Kn; exact Kn.
      + intros x y Hxy Hsy. destruct (Hent _ _ Hxy) as (n & Hn & He).
        destruct (identity_means n x y Hc Hn He) as (a & b & o & k & c & va & vb & vo & Ei & Eo & Hx & Hy & Hk & Hop & Hnd & _).
        eapply settled_node; [exact Hn|rewrite Eo; left; exact Hx|]. intros j Hj Hd. rewrite Ei in Hj.
        assert (j = k \/ j = c) as [-> | ->] by (destruct Hj as [<-|[<-|[]]], Hk as [[-> ->]|[-> ->]]; auto).
        * rewrite Hy. exact Hsy.
        * contradiction.
    - apply (identity_run sem (st_get s)); assumption.
  Qed.
End RenamePasses.

(** * Redundant nodes *)
Section Redundant.
  Variable sem : string -> list (string * attr) -> nat -> list (option fdata) -> option (list fdata).
  Variable dbg : attr -> string.
  Variable s : store.
  Variables e0 ef : fenv.
  Variable nodes : list rnode.
  Hypothesis Hp : plain dbg s e0 nodes ef.
  Hypothesis Hr : run sem (st_get s) e0 nodes = Some ef.

  Lemma names_match : forall l l' j, map aname l = map aname l' -> In j l' ->
    exists i, In i l /\ aname i = aname j.
  Proof.
    intros l l' j H Hj. apply (in_map aname) in Hj. rewrite <- H in Hj. apply in_map_iff in Hj. destruct Hj as (i & Hi & Hin). eauto.
  Qed.

  Lemma redundant_plain :
    plain dbg s e0 (eliminate_redundant_nodes dbg nodes) ef /\ run sem (st_get s) e0 (eliminate_redundant_nodes dbg nodes) = Some ef.
  Proof.
    pose proof (p_apart _ _ _ _ _ Hp) as Hap. pose proof (p_ssa _ _ _ _ _ Hp) as Hssa.
    pose proof (p_dbg _ _ _ _ _ Hp) as Hdbg. pose proof (p_names _ _ _ _ _ Hp) as Hnames. split.
    - unfold eliminate_redundant_nodes. rewrite rename_inputs_map.
      assert (Hent : forall x y, sget (cse_scan dbg [] [] nodes) x = Some y -> exists orig dup, In orig nodes /\ In dup nodes /\
        cse_key dbg orig = cse_key dbg dup /\ In x (map aname (noutputs dup)) /\ In y (map aname (noutputs orig))).
      { intros x y Hxy. apply (cse_scan_spec dbg nodes [] [] [] x y) in Hxy; [|intros ? ? []].
        destruct Hxy as [Hd|(q & dup & t & orig & o & d & E & Hin & Hk & Hlen & Hod & Hdx & Hoy)]; [discriminate|]. cbn in Hin.
        exists orig, dup. split; [rewrite E; apply in_app_iff; left; exact Hin|]. split; [rewrite E; apply in_app_iff; right; left; reflexivity|].
        split; [exact Hk|]. split; [rewrite <- Hdx; apply in_map; apply in_combine_r in Hod; exact Hod|].
        rewrite <- Hoy. apply in_map. apply in_combine_l in Hod. exact Hod. }
      apply (rename_plain sem dbg s e0 ef nodes Hp Hr).
      + apply (cse_respects sem (st_get s) dbg nodes e0 Hdbg Hnames Hap Hssa nodes [] ef); [rewrite app_nil_r; reflexivity|exact Hr].
      + intros x y Hxy. destruct (Hent _ _ Hxy) as (orig & dup & Ho & Hd & _ & Hx & Hy). split; [exact (out_of_producer _ _ _ Hd Hx)|].
        apply in_map_iff in Hy. destruct Hy as (o & <- & Hin). exact (proj1 (Hap orig Ho) o Hin).
      + intros x y Hxy Hsy. destruct (Hent _ _ Hxy) as (orig & dup & Ho & Hd & Hk & Hx & Hy).
        assert (Hcase : orig = dup \/ (ntype orig = ntype dup /\ map aname (ninputs orig) = map aname (ninputs dup) /\
           existsb (fun i => is_constant i || is_static i)%bool (ninputs orig) = false)).
        { unfold cse_key in Hk.
          destruct (existsb (fun kv => is_graph_attr (snd kv)) (nattrs orig));
          destruct (existsb (fun kv => is_graph_attr (snd kv)) (nattrs dup));
          destruct (existsb (fun i => is_constant i || is_static i)%bool (ninputs orig));
          destruct (existsb (fun i => is_constant i || is_static i)%bool (ninputs dup));
          try discriminate Hk;
          first [left; apply (NoDup_map_inj nname nodes); congruence || assumption
                |right; injection Hk as K1 K2 K3; auto]. }
        assert (Hnd : NoDup (outs_of nodes)) by exact (proj1 Hssa).
        destruct Hcase as [->|(Ht & Hi & Hc)].
        * inversion Hsy as [n y' Hn Hyn Hsh|n y' Hn Hyn Hin]; subst.
          -- rewrite (one_producer nodes n dup y Hnd Hn Hd Hyn Hy) in Hsh. eapply settled_shape; [exact Hd|exact Hx|exact Hsh].
          -- rewrite (one_producer nodes n dup y Hnd Hn Hd Hyn Hy) in Hin. eapply settled_node; [exact Hd|exact Hx|exact Hin].
        * inversion Hsy as [n y' Hn Hyn Hsh|n y' Hn Hyn Hin]; subst.
          -- rewrite (one_producer nodes n orig y Hnd Hn Ho Hyn Hy) in Hsh. eapply settled_shape; [exact Hd|exact Hx|congruence].
          -- rewrite (one_producer nodes n orig y Hnd Hn Ho Hyn Hy) in Hin. eapply settled_node; [exact Hd|exact Hx|].
             intros j Hj Hdj. destruct (names_match _ _ _ Hi Hj) as (i & Hii & Hij). rewrite <- Hij. apply Hin; [exact Hii|].
             pose proof (proj2 (Hap orig Ho) i Hii) as Ki. pose proof (proj2 (Hap dup Hd) j Hj) as Kj. rewrite Hdj in Kj.
             assert (Kc : (is_constant i || is_static i)%bool = false).
             { destruct (is_constant i || is_static i)%bool eqn:Ec; [|reflexivity]. exfalso.
               assert (existsb (fun i => is_constant i || is_static i)%bool (ninputs orig) = true); [|congruence].
               apply existsb_exists. exists i. auto. }
             unfold is_constant, is_static in Kc. destruct (asrc i); try discriminate; [reflexivity|congruence].
    - apply (cse_run sem (st_get s)); assumption.
  Qed.
End Redundant.

(** * Dead nodes *)
Lemma filter_outs (f : rnode -> bool) nodes x : In x (outs_of (filter f nodes)) -> In x (outs_of nodes).
Proof. intros H. destruct (producer_of_out _ _ H) as (m & Hm & Hx). apply filter_In in Hm. apply (out_of_producer nodes m); tauto. Qed.
Lemma filter_nodup {A} (g : rnode -> list A) (f : rnode -> bool) : forall nodes, NoDup (flat_map g nodes) -> NoDup (flat_map g (filter f nodes)).
Proof.
  induction nodes as [|n l IH]; cbn; intros H; [exact H|]. pose proof (NoDup_app_r _ _ H) as H2. specialize (IH H2).
  destruct (f n); [|exact IH]. cbn. clear H2. pose proof H as H0. apply NoDup_app_l in H0.
  assert (Hd : forall x, In x (g n) -> ~ In x (flat_map g (filter f l))).
  { intros x Hx Hin. eapply NoDup_app_disj; [exact H|exact Hx|]. apply in_flat_map in Hin. destruct Hin as (m & Hm & Hxm).
    apply filter_In in Hm. apply in_flat_map. exists m. tauto. }
  clear H. induction (g n) as [|a gn IHg]; [exact IH|]. inversion H0; subst. cbn. constructor.
  - rewrite in_app_iff. intros [K|K]; [contradiction|]. apply (Hd a); [left; reflexivity|exact K].
  - apply IHg; [assumption|]. intros x Hx. apply Hd. right; exact Hx.
Qed.
Lemma filter_ssa (f : rnode -> bool) (e : fenv) nodes : ssa e nodes -> ssa e (filter f nodes).
Proof. intros [H1 H2]. split; [apply filter_nodup; exact H1|]. intros x Hx. apply H2. apply filter_outs in Hx. exact Hx. Qed.


Section Dead.
  Variable sem : string -> list (string * attr) -> nat -> list (option fdata) -> option (list fdata).
  Variable static : N -> option fdata.

  (** Dropping nodes whose outputs nobody reads: the run goes on, with fewer names. *)
  Lemma filter_sub (keep : rnode -> bool) (L : list string) : forall nodes (e1 e2 e1' : fenv),
    ssa e1 nodes ->
    (forall n, In n nodes -> keep n = false -> forall x, In x (out_names n) -> ~ In x L) ->
    (forall n i, In n nodes -> In i (ninputs n) -> In (aname i) L) ->
    (forall x, In x L -> e1 x = e2 x) -> (forall x v, e2 x = Some v -> e1 x = Some v) ->
    run sem static e1 nodes = Some e1' ->
    exists e2', run sem static e2 (filter keep nodes) = Some e2' /\
      (forall x, In x L -> e1' x = e2' x) /\ (forall x v, e2' x = Some v -> e1' x = Some v).
  Proof.
    induction nodes as [|n r IH]; intros e1 e2 e1' Hssa Hk Hi He Hsub H; cbn in H |- *.
    - exists e2. split; [reflexivity|]. inversion H; subst. auto.
    - destruct (node_eval sem static e1 n) as [e1n|] eqn:En; [|discriminate].
      destruct (ssa_cons _ _ _ _ _ _ Hssa En) as (_ & Hfree & Hssa').
      destruct (keep n) eqn:Kn.
      + unfold node_eval in En.
        destruct (args_eval static e1 (ninputs n)) as [vs|] eqn:Ea; [|discriminate].
        destruct (sem (ntype n) (nattrs n) (length (noutputs n)) vs) as [outs|] eqn:Es; [|discriminate].
        destruct (bind_ext _ _ _ e2 _ En) as [e2n [Hb Hy]].
        assert (Ea2 : args_eval static e2 (ninputs n) = Some vs).
        { rewrite <- Ea. apply args_eval_agree. intros a Ha. symmetry. apply He.
          eapply Hi; [left; reflexivity|exact Ha]. }
        cbn. unfold node_eval. rewrite Ea2, Es, Hb.
        eapply IH; [exact Hssa'| | | | |exact H].
        * intros m Hm. apply Hk. right; exact Hm.
        * intros m i Hm. apply Hi. right; exact Hm.
        * intros x Hx. apply Hy. right. apply He; exact Hx.
        * intros x v Hv. destruct (in_dec string_dec x (map aname (noutputs n))) as [Hin|Hin].
          -- rewrite (Hy x (or_introl Hin)). exact Hv.
          -- pose proof (bind_other sem _ _ _ _ x Hb Hin) as K1. pose proof (bind_other sem _ _ _ _ x En Hin) as K2.
             rewrite K2. apply Hsub. rewrite <- K1. exact Hv.
      + eapply IH; [exact Hssa'| | | | |exact H].
        * intros m Hm. apply Hk. right; exact Hm.
        * intros m i Hm. apply Hi. right; exact Hm.
        * intros x Hx. rewrite <- He by exact Hx. eapply node_eval_other; [exact En|].
          intros Hin. eapply Hk; [left; reflexivity|exact Kn|exact Hin|exact Hx].
        * intros x v Hv. eapply node_eval_mono; [exact Hfree|exact En|]. apply Hsub; exact Hv.
  Qed.

  Lemma dead_step_sub outputs nodes (e e' : fenv) : ssa e nodes ->
    run sem static e nodes = Some e' ->
    exists e2, run sem static e (dead_step outputs nodes) = Some e2 /\
      (forall x, In x (map aname outputs) -> e2 x = e' x) /\ (forall x v, e2 x = Some v -> e' x = Some v).
  Proof.
    intros Hs H. unfold dead_step.
    destruct (filter_sub (fun n => existsb (fun o => mem_str (aname o) (live_names nodes outputs)) (noutputs n))
                (live_names nodes outputs) nodes e e e') as (e2 & H2 & Hx & Hsub); auto.
    - intros n Hn Hf x Hx Hl. unfold out_names in Hx. apply in_map_iff in Hx. destruct Hx as [o [Ho Hin]].
      assert (Ht : existsb (fun o => mem_str (aname o) (live_names nodes outputs)) (noutputs n) = true).
      { apply existsb_exists. exists o. split; [exact Hin|]. apply mem_str_In. rewrite Ho. exact Hl. }
      congruence.
    - intros n i Hn Hi. unfold live_names. apply in_app_iff. right.
      apply in_flat_map. exists n. split; [exact Hn|]. apply in_map. exact Hi.
    - exists e2. split; [exact H2|]. split; [|exact Hsub]. intros x Hin. symmetry. apply Hx.
      unfold live_names. apply in_app_iff. left; exact Hin.
  Qed.
  Lemma dead_loop_sub_run outputs : forall fuel nodes (e e' : fenv), ssa e nodes ->
    run sem static e nodes = Some e' ->
    exists e2, run sem static e (dead_loop fuel outputs nodes) = Some e2 /\
      (forall x, In x (map aname outputs) -> e2 x = e' x) /\ (forall x v, e2 x = Some v -> e' x = Some v).
  Proof.
    induction fuel as [|f IH]; intros nodes e e' Hs H; cbn.
    - exists e'. auto.
    - destruct (dead_step_sub outputs nodes e e' Hs H) as (e2 & H2 & Hx & Hsub). destruct (Nat.eqb _ _); [eauto|].
      destruct (IH _ _ _ (filter_ssa _ _ _ Hs) H2) as (e3 & H3 & Hx3 & Hsub3). exists e3. split; [exact H3|]. split.
      + intros x Hin. rewrite Hx3 by exact Hin. apply Hx; exact Hin.
      + intros x v Hv. apply Hsub. apply Hsub3. exact Hv.
  Qed.
End Dead.

Lemma arg_eval_sub static (e e' : fenv) a v : (forall x w, e x = Some w -> e' x = Some w) ->
  arg_eval static e a = Some v -> arg_eval static e' a = Some v.
Proof.
  intros H Hv. unfold arg_eval in *. destruct (asrc a); try exact Hv;
    (destruct (e (aname a)) as [w|] eqn:E; [|discriminate]; rewrite (H _ _ E); exact Hv).
Qed.

(** Fewer nodes and a smaller environment. *)
Lemma filter_plain dbg s e0 nodes ef ef' f :
  plain dbg s e0 nodes ef -> (forall x v, ef' x = Some v -> ef x = Some v) -> plain dbg s e0 (filter f nodes) ef'.
Proof.
  intros Hp Hsub. assert (Hin : forall n, In n (filter f nodes) -> In n nodes) by (intros n Hn; apply filter_In in Hn; tauto).
  assert (Hset : forall n, settled_inputs (filter f nodes) n -> settled_inputs nodes n).
  { intros n H i Hi Hd. eapply settled_mono; [exact Hin|]. apply H; assumption. }
  assert (Hseta : forall a, settled_arg (filter f nodes) a -> settled_arg nodes a).
  { intros a H Hd. eapply settled_mono; [exact Hin|]. apply H; assumption. }
  assert (Hev : forall a v, arg_eval (st_get s) ef' a = Some v -> arg_eval (st_get s) ef a = Some v).
  { intros a v. apply arg_eval_sub. exact Hsub. }
  split.
  - apply filter_ssa. exact (p_ssa _ _ _ _ _ Hp).
  - pose proof (p_names _ _ _ _ _ Hp) as Hn. clear - Hn. induction nodes as [|n l IH]; cbn in *; [constructor|]. inversion Hn; subst.
    destruct (f n); [|apply IH; assumption]. cbn. constructor; [|apply IH; assumption]. intros K. apply in_map_iff in K.
    destruct K as (m & Hm & Hin). apply filter_In in Hin. match goal with H : ~ In _ _ |- _ => apply H end. rewrite <- Hm. apply in_map. tauto.
  - intros n Hn. destruct (p_apart _ _ _ _ _ Hp n (Hin n Hn)) as [H1 H2]. split; [exact H1|]. intros i Hi. specialize (H2 i Hi).
    destruct (asrc i); try exact H2. intros m Hm. apply H2. apply Hin. exact Hm.
  - intros x y Hx Hy. apply (p_suffix _ _ _ _ _ Hp); apply (filter_outs f); assumption.
  - exact (p_store _ _ _ _ _ Hp).
  - intros x id Hid. destruct (p_registered _ _ _ _ _ Hp x id Hid) as [H0 H]. split; [exact H0|]. intros m Hm. apply H. apply Hin. exact Hm.
  - intros n Hn. apply (p_single _ _ _ _ _ Hp). apply Hin. exact Hn.
  - intros n o r Hn Ht Hs Ho Hv. exact (p_typed _ _ _ _ _ Hp n o r (Hin n Hn) Ht (Hset n Hs) Ho (Hsub _ _ Hv)).
  - intros n i more x sh Hn Ht Hi Hx. exact (p_known _ _ _ _ _ Hp n i more x sh (Hin n Hn) Ht Hi (Hev _ _ Hx)).
  - intros n Hn. apply (p_whole _ _ _ _ _ Hp). apply Hin. exact Hn.
  - intros n a v ks Hn Ht Hs Ha Hv. exact (p_forward _ _ _ _ _ Hp n a v ks (Hin n Hn) Ht (Hset n Hs) Ha (Hev _ _ Hv)).
  - intros n i Hn. apply (p_by_name _ _ _ _ _ Hp). apply Hin. exact Hn.
  - intros n a b o va vb vo Hn Hi Ho Ha Hb Hv.
    destruct (p_neutral _ _ _ _ _ Hp n a b o va vb vo (Hin n Hn) Hi Ho (Hev _ _ Ha) (Hev _ _ Hb) (Hsub _ _ Hv)) as (N1 & N2 & N3 & N4).
    repeat split; intros T S; apply Hseta in S; auto.
  - intros n m Hn Hm. apply (p_dbg _ _ _ _ _ Hp); apply Hin; assumption.
  - intros n Hn. apply (p_attention _ _ _ _ _ Hp). apply Hin. exact Hn.
  - destruct (p_permute _ _ _ _ _ Hp) as (t & Ht & Habs). exists t. split; [exact Ht|]. intros n Hn. apply Habs. apply Hin. exact Hn.
Qed.

Lemma dead_plain sem dbg s e0 nodes ef outputs : plain dbg s e0 nodes ef -> run sem (st_get s) e0 nodes = Some ef ->
  exists ef', plain dbg s e0 (eliminate_dead_nodes nodes outputs) ef' /\
    run sem (st_get s) e0 (eliminate_dead_nodes nodes outputs) = Some ef' /\ forall x, In x (map aname outputs) -> ef' x = ef x.
Proof.
  intros Hp Hr. destruct (dead_loop_sub_run sem (st_get s) outputs (S (length nodes)) nodes e0 ef (p_ssa _ _ _ _ _ Hp) Hr) as (ef' & H1 & H2 & H3).
  exists ef'. split; [|split; [exact H1|exact H2]]. unfold eliminate_dead_nodes. destruct (dead_loop_sub outputs (S (length nodes)) nodes) as [f ->].
  eapply filter_plain; eassumption.
Qed.

(** * Replacing nodes by constants *)
Definition update_node (names : list string) (n : rnode) : rnode :=
  mkNode (ntype n) (nname n) (map (to_constant names) (ninputs n)) (noutputs n) (nattrs n).
Lemma update_map names nodes : update_constant_references names nodes = map (update_node names) nodes.
Proof. reflexivity. Qed.
Lemma update_new names nm x ty id : update_node names (make_constant_node nm x ty id) = make_constant_node nm x ty id.
Proof. reflexivity. Qed.
Lemma update_outs names nodes : outs_of (map (update_node names) nodes) = outs_of nodes.
Proof. unfold outs_of. induction nodes as [|n l IH]; cbn; [reflexivity|]. rewrite IH. reflexivity. Qed.

Lemma to_constant_name names a : aname (to_constant names a) = aname a.
Proof. unfold to_constant. destruct (asrc a); try reflexivity. destruct (mem_str _ _); reflexivity. Qed.
Lemma to_constant_ty names a : aty (to_constant names a) = aty a.
Proof. unfold to_constant. destruct (asrc a); try reflexivity. destruct (mem_str _ _); reflexivity. Qed.
Lemma to_constant_src names a :
  (asrc (to_constant names a) = asrc a) \/ (asrc a = VDynamic /\ asrc (to_constant names a) = VConstant /\ In (aname a) names).
Proof.
  unfold to_constant. destruct (asrc a) eqn:E; try (left; exact E). destruct (mem_str (aname a) names) eqn:Em; [|left; exact E].
  right. apply mem_str_In in Em. auto.
Qed.
Lemma to_constant_fixed names a : asrc a <> VDynamic -> to_constant names a = a.
Proof. unfold to_constant. destruct (asrc a); congruence. Qed.

Lemma repl_names P s nodes s' nodes' names : repl P s nodes s' nodes' names -> forall x, In x names ->
  exists n o os st d ty, In n nodes /\ noutputs n = o :: os /\ aname o = x /\ P st n d ty.
Proof.
  induction 1 as [s|s n r s' r' names H IH|s n r o os d ty s' r' names Ho Hc HP H IH]; intros x Hx; [destruct Hx| |].
  - destruct (IH x Hx) as (m & o & os & st & d & ty & Hm & R). exists m, o, os, st, d, ty. split; [right; exact Hm|exact R].
  - destruct Hx as [<-|Hx].
    + exists n, o, os, s, d, ty. split; [left; reflexivity|auto].
    + destruct (IH x Hx) as (m & o' & os' & st & d' & ty' & Hm & R). exists m, o', os', st, d', ty'. split; [right; exact Hm|exact R].
Qed.
Lemma repl_kept P s nodes s' nodes' names : repl P s nodes s' nodes' names -> forall m, In m nodes' ->
  In m nodes \/ exists nm x ty id, m = make_constant_node nm x ty id /\ In x names.
Proof.
  induction 1 as [s|s n r s' r' names H IH|s n r o os d ty s' r' names Ho Hc HP H IH]; intros m Hm; [destruct Hm| |].
  - destruct Hm as [<-|Hm]; [left; left; reflexivity|]. destruct (IH m Hm) as [K|K]; [left; right; exact K|right; exact K].
  - destruct Hm as [<-|Hm]; [right; eexists; eexists; eexists; eexists; split; [reflexivity|left; reflexivity]|].
    destruct (IH m Hm) as [K|(nm & x & ty' & id & -> & K)]; [left; right; exact K|]. right. exists nm, x, ty', id. split; [reflexivity|right; exact K].
Qed.
Lemma repl_node_names P s nodes s' nodes' names : repl P s nodes s' nodes' names -> map nname nodes' = map nname nodes.
Proof. induction 1; cbn; congruence. Qed.

Section Freeze.
  Variable sem : string -> list (string * attr) -> nat -> list (option fdata) -> option (list fdata).
  Variable dbg : attr -> string.
  Variables s s' : store.
  Variables e0 ef : fenv.
  Variables nodes nodes' : list rnode.
  Variable names : list string.
  Hypothesis Hp : plain dbg s e0 nodes ef.
  Hypothesis Hr : run sem (st_get s) e0 nodes = Some ef.
  Hypothesis Houts : outs_of nodes' = outs_of nodes.
  Hypothesis Hnames : map nname nodes' = map nname nodes.
  Hypothesis Hnodes : forall m, In m nodes' -> (exists n, In n nodes /\ m = update_node names n) \/
    exists nm x ty id, m = make_constant_node nm x ty id /\ In x names.
  Hypothesis Hset : forall x, In x names -> settled nodes x /\ In x (outs_of nodes).
  Hypothesis Hstore : store_ok s'.
  Hypothesis Hext : extends s s'.
  Hypothesis Hreg : forall x id, sget (st_const s') x = Some id ->
    (In x names /\ exists nm ty, In (make_constant_node nm x ty id) nodes') \/ (~ In x names /\ sget (st_const s) x = Some id).

  Lemma freeze_settled x : settled nodes' x -> settled nodes x.
  Proof.
    induction 1 as [n x Hn Hx Ht|n x Hn Hx Hi IH]; (destruct (Hnodes n Hn) as [(m & Hm & ->)|(nm & y & ty & id & -> & Hy)];
      [|cbn in Hx; destruct Hx as [<-|[]]; apply Hset; exact Hy]).
    - eapply settled_shape; [exact Hm|exact Hx|exact Ht].
    - eapply settled_node; [exact Hm|exact Hx|]. intros i Hin Hd. destruct (to_constant_src names i) as [K|(_ & _ & K)]; [|apply Hset; exact K].
      rewrite <- (to_constant_name names i). apply IH; [cbn; apply in_map; exact Hin|congruence].
  Qed.
  Lemma freeze_settled_arg a : settled_arg nodes' (to_constant names a) -> settled_arg nodes a.
  Proof.
    intros H Hd. destruct (to_constant_src names a) as [K|(_ & _ & K)]; [|apply Hset; exact K].
    apply freeze_settled. rewrite <- (to_constant_name names a). apply H. congruence.
  Qed.
  Lemma freeze_settled_inputs n : settled_inputs nodes' (update_node names n) -> settled_inputs nodes n.
  Proof.
    intros H i Hi Hd. apply freeze_settled_arg; [|exact Hd]. intros Hd'. apply H; [cbn; apply in_map; exact Hi|exact Hd'].
  Qed.
  Lemma freeze_value n a v : In n nodes -> In a (ninputs n) ->
    arg_eval (st_get s') ef (to_constant names a) = Some v -> arg_eval (st_get s) ef a = Some v.
  Proof.
    intros Hn Ha Hv. rewrite to_constant_eval in Hv. destruct (read sem dbg s e0 ef nodes Hp Hr n a Hn Ha) as [w Hw].
    unfold arg_eval in *. destruct (asrc a) as [id| | |]; try exact Hv.
    destruct (st_get s id) as [d|] eqn:Ed; [|discriminate]. rewrite (Hext _ _ Ed) in Hv. exact Hv.
  Qed.
  Lemma freeze_op n : In n nodes' -> ntype n <> "Constant"%string -> exists m, In m nodes /\ n = update_node names m.
  Proof. intros Hn Ht. destruct (Hnodes n Hn) as [K|(nm & x & ty & id & -> & _)]; [exact K|]. exfalso. apply Ht. reflexivity. Qed.

  Lemma freeze_plain : plain dbg s' e0 nodes' ef.
  Proof.
    assert (Hssa' : ssa e0 nodes') by (unfold ssa; fold (outs_of nodes'); rewrite Houts; exact (p_ssa _ _ _ _ _ Hp)).
    assert (Hout : forall m x, In m nodes' -> In x (map aname (noutputs m)) -> In x (outs_of nodes)).
    { intros m x Hm Hx. rewrite <- Houts. exact (out_of_producer nodes' m x Hm Hx). }
    assert (Hne : forall x, In x (outs_of nodes) -> x <> EmptyString).
    { intros x Hx. destruct (producer_of_out _ _ Hx) as (m & Hm & Hxm). apply in_map_iff in Hxm. destruct Hxm as (o & <- & Ho).
      exact (proj1 (p_apart _ _ _ _ _ Hp m Hm) o Ho). }
    split.
    - exact Hssa'.
    - rewrite Hnames. exact (p_names _ _ _ _ _ Hp).
    - intros m Hm. split.
      + intros o Ho. apply Hne. apply (Hout m); [exact Hm|apply in_map; exact Ho].
      + intros i Hi. destruct (Hnodes m Hm) as [(n & Hn & ->)|(nm & x & ty & id & -> & Hx)].
        * cbn in Hi. apply in_map_iff in Hi. destruct Hi as (j & <- & Hj). rewrite to_constant_name.
          pose proof (proj2 (p_apart _ _ _ _ _ Hp n Hn) j Hj) as K. destruct (to_constant_src names j) as [E|(E1 & E2 & _)].
          -- rewrite E. destruct (asrc j) eqn:Ej; try exact K. intros m' Hm' Hin. apply (Hout m' _ Hm') in Hin.
             destruct (producer_of_out _ _ Hin) as (q & Hq & Hqx). exact (K q Hq Hqx).
          -- rewrite E2. rewrite E1 in K. exact K.
        * cbn in Hi. destruct Hi as [<-|[]]. cbn [asrc aname]. intros m' Hm' Hin. apply (Hout m' _ Hm') in Hin.
          apply (p_suffix _ _ _ _ _ Hp x (x ++ "_const")%string); [apply Hset; exact Hx|exact Hin|reflexivity].
    - unfold suffix_free. fold (outs_of nodes'). rewrite Houts. exact (p_suffix _ _ _ _ _ Hp).
    - exact Hstore.
    - intros x id Hid. destruct (Hreg x id Hid) as [(Hx & nm & ty & Hc)|(Hx & Hid0)].
      + split; [apply (p_ssa _ _ _ _ _ Hp); apply Hset; exact Hx|]. intros m Hm Hmx.
        assert (m = make_constant_node nm x ty id) as ->.
        { apply (one_producer nodes' m _ x); [exact (proj1 Hssa')|exact Hm|exact Hc|exact Hmx|left; reflexivity]. }
        eexists; eexists. repeat split.
      + destruct (p_registered _ _ _ _ _ Hp x id Hid0) as [H0 H]. split; [exact H0|]. intros m Hm Hmx.
        destruct (Hnodes m Hm) as [(n & Hn & ->)|(nm & y & ty & id' & -> & Hy)].
        * destruct (H n Hn Hmx) as (i & o & T & I & S & O & N). exists i, o. cbn. rewrite I. cbn.
          rewrite to_constant_fixed by (rewrite S; discriminate). auto 10.
        * exfalso. apply Hx. cbn in Hmx. destruct Hmx as [<-|[]]. exact Hy.
    - intros n' Hn Ht. destruct (freeze_op n' Hn) as (n & Hm & ->); [intros E; rewrite E in Ht; cbn in Ht; intuition discriminate|].
      exact (p_single _ _ _ _ _ Hp n Hm Ht).
    - intros n' o r Hn Ht Hs Ho Hv. destruct (freeze_op n' Hn) as (n & Hm & ->); [intros E; rewrite E in Ht; cbn in Ht; intuition discriminate|].
      exact (p_typed _ _ _ _ _ Hp n o r Hm Ht (freeze_settled_inputs n Hs) Ho Hv).
    - intros n' i' more x sh Hn Ht Hi Hx Hsh. destruct (freeze_op n' Hn) as (n & Hm & ->); [congruence|]. cbn in Ht, Hi.
      destruct (ninputs n) as [|i rest] eqn:Ei; [discriminate|]. cbn in Hi. injection Hi as <- _.
      apply (p_known _ _ _ _ _ Hp n i rest x sh Hm Ht Ei); [|rewrite to_constant_ty in Hsh; exact Hsh].
      apply (freeze_value n); [exact Hm|rewrite Ei; left; reflexivity|exact Hx].
    - intros n' Hn Ht. destruct (freeze_op n' Hn) as (n & Hm & ->); [congruence|]. exact (p_whole _ _ _ _ _ Hp n Hm Ht).
    - intros n' a' v ks Hn Ht Hs Ha Hv Hk. destruct (freeze_op n' Hn) as (n & Hm & ->); [congruence|]. cbn [ninputs update_node] in Ha.
      rewrite nth_error_map in Ha. destruct (nth_error (ninputs n) 4) as [a|] eqn:Ea; [|discriminate]. injection Ha as <-.
      apply (p_forward _ _ _ _ _ Hp n a v ks Hm Ht (freeze_settled_inputs n Hs) Ea); [|exact Hk].
      apply (freeze_value n); [exact Hm|eapply nth_error_In; exact Ea|exact Hv].
    - intros n' i' Hn Ht Hi. destruct (freeze_op n' Hn) as (n & Hm & ->); [intros E; rewrite E in Ht; cbn in Ht; intuition discriminate|].
      cbn in Hi. apply in_map_iff in Hi. destruct Hi as (i & <- & Hi).
      destruct (to_constant_src names i) as [->|(_ & -> & _)]; [|right; reflexivity]. exact (p_by_name _ _ _ _ _ Hp n i Hm Ht Hi).
    - intros n' a' b' o va vb vo Hn Hi Ho Ha Hb Hv.
      destruct (Hnodes n' Hn) as [(n & Hm & ->)|(nm & x & ty & id & -> & Hx)]; [|discriminate]. cbn in Hi, Ho.
      destruct (ninputs n) as [|a [|b [|]]] eqn:Ei; try discriminate. cbn in Hi. injection Hi as <- <-.
      assert (Hina : In a (ninputs n)) by (rewrite Ei; left; reflexivity). assert (Hinb : In b (ninputs n)) by (rewrite Ei; right; left; reflexivity).
      destruct (p_neutral _ _ _ _ _ Hp n a b o va vb vo Hm Ei Ho (freeze_value n a _ Hm Hina Ha) (freeze_value n b _ Hm Hinb Hb) Hv) as (N1 & N2 & N3 & N4).
      cbn [ntype update_node]. repeat split; intros T S; apply freeze_settled_arg in S; auto.
    - intros n' m' Hn Hm a b Ha Hb.
      destruct (Hnodes n' Hn) as [(n & Hn0 & ->)|(nm & x & ty & id & -> & _)]; [|destruct Ha].
      destruct (Hnodes m' Hm) as [(m & Hm0 & ->)|(nm & x & ty & id & -> & _)]; [|destruct Hb].
      exact (p_dbg _ _ _ _ _ Hp n m Hn0 Hm0 a b Ha Hb).
    - intros n' Hn Ht. destruct (freeze_op n' Hn) as (n & Hm & ->); [congruence|]. exact (p_attention _ _ _ _ _ Hp n Hm Ht).
    - destruct (p_permute _ _ _ _ _ Hp) as (t & Ht & Habs). exists t. split; [exact Ht|]. intros n' Hn E.
      destruct (freeze_op n' Hn) as (n & Hm & ->); [intros E'; rewrite <- E, E' in Ht; cbn in Ht; intuition discriminate|]. exact (Habs n Hm E).
  Qed.
End Freeze.

Lemma to_constant_names names outputs : map aname (map (to_constant names) outputs) = map aname outputs.
Proof. rewrite map_map. apply map_ext. apply to_constant_name. Qed.

Lemma fold_plain sem dbg s e0 nodes ef outputs s' nodes' outputs' :
  constants_mean sem -> folded_mean sem -> plain dbg s e0 nodes ef -> run sem (st_get s) e0 nodes = Some ef ->
  fold_constants s nodes outputs = Done (s', nodes', outputs') ->
  plain dbg s' e0 nodes' ef /\ run sem (st_get s') e0 nodes' = Some ef /\ map aname outputs' = map aname outputs.
Proof.
  intros Hc Hm Hp Hr H. pose proof (plain_linked sem dbg s e0 ef nodes Hp Hr) as Hl.
  destruct (fold_run sem s nodes outputs s' nodes' outputs' e0 ef Hc Hm (p_ssa _ _ _ _ _ Hp) (p_store _ _ _ _ _ Hp) Hl Hr
    (plain_single_fold dbg s e0 ef nodes Hp) (plain_typed_fold dbg s e0 ef nodes Hp) H) as (Hr' & Hs' & _ & Ho).
  split; [|split; [exact Hr'|exact Ho]].
  destruct (fold_constants_repl _ _ _ _ _ _ H) as (mid & names & Hrep & -> & _). rewrite update_map.
  assert (H1 : forall st n d ty, In n nodes -> fold_step st n d ty -> length (noutputs n) = 1%nat).
  { intros st n d ty Hn [_ He]. apply evaluate_ops in He. destruct (plain_single_fold dbg s e0 ef nodes Hp n Hn He) as (o & ->). reflexivity. }
  apply (freeze_plain sem dbg s s' e0 ef nodes (map (update_node names) mid) names Hp Hr).
  - rewrite update_outs. eapply repl_outs; [exact Hrep|exact H1].
  - rewrite map_map. cbn. eapply repl_node_names. exact Hrep.
  - intros m Hin. apply in_map_iff in Hin. destruct Hin as (m0 & <- & Hin). destruct (repl_kept _ _ _ _ _ _ Hrep m0 Hin) as [K|(nm & x & ty & id & -> & K)].
    + left. exists m0. auto.
    + right. rewrite update_new. eauto 10.
  - intros x Hx. destruct (repl_names _ _ _ _ _ _ Hrep x Hx) as (n & o & os & st & d & ty & Hn & Eo & Ex & [Ha _]). split.
    + eapply settled_node; [exact Hn|rewrite Eo; left; exact Ex|]. exact (all_const_settled nodes st n Ha).
    + apply (out_of_producer nodes n); [exact Hn|]. rewrite Eo. left; exact Ex.
  - exact Hs'.
  - apply (repl_store _ _ _ _ _ _ Hrep (p_store _ _ _ _ _ Hp)).
  - intros x id Hid. destruct (repl_const_map _ _ _ _ _ _ Hrep x id Hid) as [(K & nm & ty & Hin)|K]; [left|right; exact K].
    split; [exact K|]. exists nm, ty. rewrite <- (update_new names). apply in_map. exact Hin.
Qed.

Lemma shape_plain sem dbg s e0 nodes ef outputs s' nodes' outputs' :
  constants_mean sem -> shapes_mean sem -> plain dbg s e0 nodes ef -> run sem (st_get s) e0 nodes = Some ef ->
  simplify_constant_shape s nodes outputs = Done (s', nodes', outputs') ->
  plain dbg s' e0 nodes' ef /\ run sem (st_get s') e0 nodes' = Some ef /\ map aname outputs' = map aname outputs.
Proof.
  intros Hc Hm Hp Hr H. pose proof (plain_linked sem dbg s e0 ef nodes Hp Hr) as Hl.
  pose proof (p_ssa _ _ _ _ _ Hp) as Hssa. pose proof (p_store _ _ _ _ _ Hp) as Hst.
  pose proof (plain_single_shape dbg s e0 ef nodes Hp) as H1o.
  destruct (shape_run sem s nodes e0 ef Hc Hm Hssa Hst Hl Hr H1o (plain_typed_gather dbg s e0 ef nodes Hp) (p_known _ _ _ _ _ Hp)
    (plain_apart dbg s e0 ef nodes Hp) (p_whole _ _ _ _ _ Hp) (plain_forward sem dbg s e0 ef nodes Hp Hr Hc) outputs s' nodes' outputs' H) as (Hr' & Hs' & _ & Ho).
  split; [|split; [exact Hr'|exact Ho]].
  destruct (constant_shape_repl _ _ _ _ _ _ H) as (s1 & mid & names1 & last & names2 & R1 & R2 & -> & _). rewrite update_map.
  assert (G1 : forall st n d ty, In n nodes -> wanted_step (wanted_gather s nodes) st n d ty -> length (noutputs n) = 1%nat /\ settled_inputs nodes n).
  { intros st n d ty Hn HP. split; [|exact (gather_settled sem s nodes e0 ef Hm Hssa Hr H1o st n d ty Hn HP)].
    destruct HP as (l & HP & _). unfold wanted_gather in HP. destruct (String.eqb_spec (ntype n) "Gather") as [Tn|]; [|discriminate].
    destruct (H1o n Hn) as (o & ->); [rewrite Tn; right; left; reflexivity|reflexivity]. }
  assert (Hsub : forall m, In m mid -> ntype m <> "Constant"%string -> In m nodes).
  { intros m Hmm Ht. destruct (repl_kept _ _ _ _ _ _ R1 m Hmm) as [K|(nm & x & ty & id & -> & _)]; [exact K|]. exfalso. apply Ht. reflexivity. }
  assert (G2 : forall st n d ty, In n mid -> wanted_step (wanted_slice s mid) st n d ty -> In n nodes /\ length (noutputs n) = 1%nat /\ settled_inputs nodes n).
  { intros st n d ty Hn HP. assert (Tn : ntype n = "Slice"%string).
    { destruct HP as (l & HP & _). unfold wanted_slice in HP. destruct (String.eqb_spec (ntype n) "Slice") as [Tn|]; [exact Tn|discriminate]. }
    assert (Hn0 : In n nodes) by (apply Hsub; [exact Hn|rewrite Tn; discriminate]).
    split; [exact Hn0|]. split.
    - destruct (H1o n Hn0) as (o & ->); [rewrite Tn; right; right; left; reflexivity|reflexivity].
    - apply (slice_settled sem s nodes e0 ef Hc Hm Hssa Hst Hl Hr H1o mid st n d ty Hn0); [|exact HP]. intros m Hmm Tm. apply Hsub; [exact Hmm|rewrite Tm; discriminate]. }
  assert (Ho1 : outs_of mid = outs_of nodes) by (eapply repl_outs; [exact R1|]; intros st n d ty Hn HP; apply (G1 st n d ty Hn HP)).
  assert (Ho2 : outs_of last = outs_of mid) by (eapply repl_outs; [exact R2|]; intros st n d ty Hn HP; apply (G2 st n d ty Hn HP)).
  apply (freeze_plain sem dbg s s' e0 ef nodes (map (update_node (names1 ++ names2)) last) (names1 ++ names2) Hp Hr).
  - rewrite update_outs, Ho2. exact Ho1.
  - rewrite map_map. cbn. change (map nname last = map nname nodes). rewrite (repl_node_names _ _ _ _ _ _ R2). exact (repl_node_names _ _ _ _ _ _ R1).
  - intros m Hin. apply in_map_iff in Hin. destruct Hin as (m0 & <- & Hin).
    destruct (repl_kept _ _ _ _ _ _ R2 m0 Hin) as [K|(nm & x & ty & id & -> & K)].
    + destruct (repl_kept _ _ _ _ _ _ R1 m0 K) as [K1|(nm & x & ty & id & -> & K1)].
      * left. exists m0. auto.
      * right. rewrite update_new. exists nm, x, ty, id. split; [reflexivity|]. apply in_app_iff. left; exact K1.
    + right. rewrite update_new. exists nm, x, ty, id. split; [reflexivity|]. apply in_app_iff. right; exact K.
  - intros x Hx. apply in_app_iff in Hx. destruct Hx as [Hx|Hx].
    + destruct (repl_names _ _ _ _ _ _ R1 x Hx) as (n & o & os & st & d & ty & Hn & Eo & Ex & HP). destruct (G1 st n d ty Hn HP) as [_ Hs]. split.
      * eapply settled_node; [exact Hn|rewrite Eo; left; exact Ex|exact Hs].
      * apply (out_of_producer nodes n); [exact Hn|]. rewrite Eo. left; exact Ex.
    + destruct (repl_names _ _ _ _ _ _ R2 x Hx) as (n & o & os & st & d & ty & Hn & Eo & Ex & HP). destruct (G2 st n d ty Hn HP) as (Hn0 & _ & Hs). split.
      * eapply settled_node; [exact Hn0|rewrite Eo; left; exact Ex|exact Hs].
      * apply (out_of_producer nodes n); [exact Hn0|]. rewrite Eo. left; exact Ex.
  - exact Hs'.
  - destruct (repl_store _ _ _ _ _ _ R1 Hst) as [Hs1 X1]. destruct (repl_store _ _ _ _ _ _ R2 Hs1) as [_ X2].
    intros id d Hd. apply X2. apply X1. exact Hd.
  - intros x id Hid. destruct (repl_const_map _ _ _ _ _ _ R2 x id Hid) as [(K & nm & ty & Hin)|(K & Hid1)].
    + left. split; [apply in_app_iff; right; exact K|]. exists nm, ty. rewrite <- (update_new (names1 ++ names2)). apply in_map. exact Hin.
    + destruct (repl_const_map _ _ _ _ _ _ R1 x id Hid1) as [(K1 & nm & ty & Hin)|(K1 & Hid0)].
      * left. split; [apply in_app_iff; left; exact K1|]. exists nm, ty. rewrite <- (update_new (names1 ++ names2)). apply in_map.
        eapply repl_keeps_constants; [exact R2|exact Hin|reflexivity].
      * right. split; [|exact Hid0]. rewrite in_app_iff. tauto.
Qed.

(** * The two passes with nothing to do *)
Lemma attention_idle reading nodes : no_attention nodes -> Attention_Model.coalesce_attention reading nodes = Done nodes.
Proof.
  intros H. unfold Attention_Model.coalesce_attention.
  assert (K : forall l, (forall n, In n l -> ntype n <> "Softmax"%string) -> Attention_Model.collect reading nodes l = Done []).
  { induction l as [|n l IH]; intros Hl; cbn; [reflexivity|]. destruct (String.eqb_spec (ntype n) "Softmax") as [E|_].
    - exfalso. exact (Hl n (or_introl eq_refl) E).
    - apply IH. intros m Hm. apply Hl. right; exact Hm. }
  rewrite (K nodes H). reflexivity.
Qed.

Lemma permute_producer nodes x n : Permute_Model.producer nodes x = Some n -> In n nodes.
Proof. unfold Permute_Model.producer. intros H. apply find_some in H. destruct H as [H _]. apply in_rev. exact H. Qed.

Lemma chain_idle scalar nodes len i t : In t ["Unsqueeze"; "Gather"; "Shape"]%string -> (forall n, In n nodes -> ntype n <> t) ->
  forall r, Permute_Model.chain scalar nodes len i <> Some (Some r).
Proof.
  intros Ht Habs r H. unfold Permute_Model.chain in H.
  destruct (Permute_Model.producer nodes (aname i)) as [un|] eqn:E1; [|discriminate]. apply permute_producer in E1.
  destruct (String.eqb_spec (ntype un) "Unsqueeze") as [T1|]; cbn [negb] in H; [|discriminate].
  destruct (ninputs un) as [|u us]; [discriminate|].
  destruct (Permute_Model.producer nodes (aname u)) as [ga|] eqn:E2; [|discriminate]. apply permute_producer in E2.
  destruct (String.eqb_spec (ntype ga) "Gather") as [T2|]; cbn [negb] in H; [|discriminate].
  assert (K : (match nth_error (ninputs ga) 1 with
                    | None => Some None
                    | Some index =>
                        match scalar index with
                        | None => Some None
                        | Some z =>
                            match ninputs ga with
                            | [] => None
                            | g :: _ =>
                                match Permute_Model.producer nodes (aname g) with
                                | None => Some None
                                | Some shape =>
                                    if negb (String.eqb (ntype shape) "Shape") then Some None else
                                    match ninputs shape with
                                    | [] => None
                                    | d :: _ => Some (Some (if (z <? 0)%Z then (z + Z.of_nat len)%Z else z, aname d))
                                    end
                                end
                            end
                        end
                    end) = Some (Some r)).
  { destruct (get_attr ga "axis") as [at0|]; [|exact H]. destruct at0 as [z| | | | | | | | | | | ]; try discriminate; destruct z; try discriminate; exact H. }
  clear H. destruct (nth_error (ninputs ga) 1) as [ix|]; [|discriminate]. destruct (scalar ix) as [z|]; [|discriminate].
  destruct (ninputs ga) as [|g gs]; [discriminate|].
  destruct (Permute_Model.producer nodes (aname g)) as [sh|] eqn:E3; [|discriminate]. apply permute_producer in E3.
  destruct (String.eqb_spec (ntype sh) "Shape") as [T3|]; cbn [negb] in K; [|discriminate].
  destruct Ht as [<-|[<-|[<-|[]]]]; [exact (Habs _ E1 T1)|exact (Habs _ E2 T2)|exact (Habs _ E3 T3)].
Qed.

Lemma permute_idle scalar nodes nodes' : no_permute nodes -> Permute_Model.simplify_permute_reshape scalar nodes = Some nodes' -> nodes' = nodes.
Proof.
  intros (t & Ht & Habs).
  assert (K : forall n n', In n nodes -> Permute_Model.permute_node scalar nodes n = Some n' -> n' = n).
  { intros n n' Hn H. unfold Permute_Model.permute_node in H.
    destruct (String.eqb_spec (ntype n) "Reshape") as [T0|]; [|congruence].
    destruct (Permute_Model.extract_permute_pattern scalar nodes n) as [[p|]|] eqn:Ep; try congruence. exfalso. clear H.
    unfold Permute_Model.extract_permute_pattern in Ep. destruct (ninputs n) as [|x [|sx rest]]; try discriminate.
    destruct (Permute_Model.producer nodes (aname sx)) as [co|] eqn:E1; [|discriminate]. apply permute_producer in E1.
    destruct (String.eqb_spec (ntype co) "Concat") as [T1|]; cbn [negb] in Ep; [|discriminate].
    destruct (ninputs co) as [|i l]; [discriminate|]. cbn [Permute_Model.chains] in Ep.
    destruct (Permute_Model.chain scalar nodes (length (i :: l)) i) as [[[z d]|]|] eqn:Ec; try discriminate.
    destruct Ht as [<-|[<-|Ht]]; [exact (Habs _ Hn T0)|exact (Habs _ E1 T1)|]. exact (chain_idle scalar nodes _ i t Ht Habs _ Ec). }
  unfold Permute_Model.simplify_permute_reshape.
  assert (L : forall l l', (forall n, In n l -> In n nodes) -> Permute_Model.permute_all scalar nodes l = Some l' -> l' = l).
  { induction l as [|n r IH]; intros l' Hl H; cbn in H; [congruence|].
    destruct (Permute_Model.permute_node scalar nodes n) as [n'|] eqn:En; [|discriminate].
    destruct (Permute_Model.permute_all scalar nodes r) as [r'|] eqn:Er; [|discriminate]. injection H as <-.
    apply K in En; [|apply Hl; left; reflexivity]. subst n'. f_equal. apply IH; [|reflexivity]. intros m Hm. apply Hl. right; exact Hm. }
  apply L. auto.
Qed.

(** * Rounds *)
Section Rounds.
  Variable sem : string -> list (string * attr) -> nat -> list (option fdata) -> option (list fdata).
  Variable dbg : attr -> string.
  Hypothesis Hc : constants_mean sem.
  Hypothesis Hsh : shapes_mean sem.
  Hypothesis Hf : folded_mean sem.
  Hypothesis Hi : idempotent_mean sem.

  Lemma round_plain e0 ef g g' : plain dbg (gs_store g) e0 (gs_nodes g) ef -> run sem (st_get (gs_store g)) e0 (gs_nodes g) = Some ef ->
    round dbg g = Done g' ->
    exists ef', plain dbg (gs_store g') e0 (gs_nodes g') ef' /\ run sem (st_get (gs_store g')) e0 (gs_nodes g') = Some ef' /\
      map aname (gs_outputs g') = map aname (gs_outputs g) /\ forall x, In x (map aname (gs_outputs g)) -> ef' x = ef x.
  Proof.
    intros Hp Hr H. destruct (round_inv _ _ _ H) as (n1 & n2 & s1 & n3 & o1 & n4 & E1 & E2 & E3 & E4 & ->).
    rewrite (attention_idle _ _ (p_attention _ _ _ _ _ Hp)) in E1. injection E1 as <-.
    apply (permute_idle _ _ _ (p_permute _ _ _ _ _ Hp)) in E2. subst n2.
    destruct (shape_plain sem dbg _ e0 _ ef _ _ _ _ Hc Hsh Hp Hr E3) as (P3 & R3 & O3).
    destruct (fold_plain sem dbg _ e0 _ ef _ _ _ _ Hc Hf P3 R3 E4) as (P4 & R4 & O4).
    destruct (idempotent_plain sem dbg _ e0 ef _ P4 R4 Hi) as (P5 & R5).
    destruct (identity_plain sem dbg _ e0 ef _ P5 R5 Hc) as (P6 & R6).
    destruct (redundant_plain sem dbg _ e0 ef _ P6 R6) as (P7 & R7).
    destruct (dead_plain sem dbg _ e0 _ ef (gs_outputs g') P7 R7) as (ef' & P8 & R8 & X).
    exists ef'. split; [exact P8|]. split; [exact R8|]. rewrite <- O3, <- O4. split; [reflexivity|exact X].
  Qed.

  Lemma rounds_plain : forall fuel e0 ef g g', plain dbg (gs_store g) e0 (gs_nodes g) ef -> run sem (st_get (gs_store g)) e0 (gs_nodes g) = Some ef ->
    rounds dbg fuel g = Done g' ->
    exists ef', plain dbg (gs_store g') e0 (gs_nodes g') ef' /\ run sem (st_get (gs_store g')) e0 (gs_nodes g') = Some ef' /\
      map aname (gs_outputs g') = map aname (gs_outputs g) /\ forall x, In x (map aname (gs_outputs g)) -> ef' x = ef x.
  Proof.
    induction fuel as [|k IH]; intros e0 ef g g' Hp Hr H; cbn [rounds] in H.
    - injection H as <-. exists ef. auto.
    - destruct (round dbg g) as [| |g1] eqn:E; cbn [ebind] in H; try discriminate.
      destruct (round_plain e0 ef g g1 Hp Hr E) as (ef1 & P1 & R1 & O1 & X1).
      destruct (Nat.ltb _ _); [discriminate|]. destruct (Nat.eqb _ _).
      + injection H as <-. exists ef1. auto.
      + destruct (IH e0 ef1 g1 g' P1 R1 H) as (ef2 & P2 & R2 & O2 & X2). exists ef2. split; [exact P2|]. split; [exact R2|].
        split; [congruence|]. intros x Hx. rewrite X2 by (rewrite O1; exact Hx). apply X1. exact Hx.
  Qed.
End Rounds.
