(** C76: which code an operator name gets. *)
From Verif Require Import IR_Model Ops_Spec Ops_Model.
Local Open Scope string_scope.

Lemma from_str_ok op v : from_str op = Some v -> In v variants /\ same_name op v.
Proof.
  unfold from_str. intros H. apply find_some in H. destruct H as [H1 H2]. apply String.eqb_eq in H2.
  split; [exact H1|]. unfold same_name. congruence.
Qed.

Lemma registry_builds : forallb (fun p => match build (snd p) (fst p) with Some w => String.eqb w (fst p) | None => false end) registry = true.
Proof. vm_compute. reflexivity. Qed.

Lemma processor_builds v p w : processor v = Some p -> build p v = Some w -> w = v.
Proof.
  unfold processor. destruct (find _ registry) as [q|] eqn:E; [|discriminate]. intros H Hb. injection H as <-.
  apply find_some in E. destruct E as [Hin Hq]. apply String.eqb_eq in Hq. subst v.
  pose proof registry_builds as G. rewrite forallb_forall in G. specialize (G q Hin). rewrite Hb in G.
  apply String.eqb_eq in G. exact G.
Qed.

Lemma remap_ok v dims w : remap v dims = Some w -> v = w \/
  exists k, In v ["Conv"; "ConvTranspose"; "MaxPool"; "AveragePool"] /\ In k ["1d"; "2d"; "3d"] /\ w = v ++ k.
Proof.
  unfold remap. intros H.
  destruct (String.eqb v "Conv") eqn:E1; [|destruct (String.eqb v "ConvTranspose") eqn:E2; [|destruct (String.eqb v "MaxPool") eqn:E3; [|destruct (String.eqb v "AveragePool") eqn:E4]]].
  1,2,3,4: right; match goal with E : String.eqb ?x _ = true |- _ => apply String.eqb_eq in E; subst x end;
    destruct dims as [[|[|[|[|n]]]]|]; try discriminate H; injection H as <-; eexists; (split; [cbn; tauto|]); (split; [|reflexivity]); cbn; tauto.
  left. congruence.
Qed.

(** Whatever the node, if code comes out it is code for its operator. *)
Theorem C76_code_is_for_the_operator : forall n dims v, compile n dims = Some v -> code_for (np_op n) v.
Proof.
  intros n dims v. unfold compile, import. destruct (from_str (np_op n)) as [u|] eqn:E1; [|discriminate].
  destruct (remap u dims) as [w|] eqn:E2; [|discriminate]. destruct (processor w) as [p|] eqn:E3; [|discriminate].
  destruct (build p w) as [x|] eqn:E4; [|discriminate]. intros Hg. unfold generate in Hg.
  apply find_some in Hg. destruct Hg as [_ Hg]. apply String.eqb_eq in Hg. subst v.
  apply (processor_builds _ _ _ E3) in E4. subst x. apply from_str_ok in E1. destruct E1 as [_ Hs].
  destruct (remap_ok _ _ _ E2) as [-> | [k [Hv [Hk ->]]]]; [left; exact Hs|].
  right. exists u, k. auto.
Qed.
Print Assumptions C76_code_is_for_the_operator.

(** The known names stay different when the case of letters is ignored, so that
    spelling never decides between two operators. *)
Lemma lower_distinct : forallb (fun p => forallb (fun q => if String.eqb (lower p) (lower q) then String.eqb p q else true) variants) variants = true.
Proof. vm_compute. reflexivity. Qed.
Theorem C76_names_unambiguous : forall op v w, In v variants -> In w variants -> same_name op v -> same_name op w -> v = w.
Proof.
  intros op v w Hv Hw Sv Sw. pose proof lower_distinct as G. rewrite forallb_forall in G. specialize (G v Hv).
  rewrite forallb_forall in G. specialize (G w Hw). unfold same_name in *.
  assert (E : String.eqb (lower v) (lower w) = true) by (apply String.eqb_eq; congruence).
  rewrite E in G. apply String.eqb_eq in G. exact G.
Qed.
Print Assumptions C76_names_unambiguous.

(** Spelling in other letters is accepted and changes nothing. *)
Theorem C76_case_is_ignored : forall d d' op op' dims, same_name op op' -> compile (mkProto d op) dims = compile (mkProto d' op') dims.
Proof. intros d d' op op' dims H. unfold compile, import, from_str. cbn [np_op]. unfold same_name in H. rewrite H. reflexivity. Qed.
Print Assumptions C76_case_is_ignored.

(** A name that is not known stops the import; it is never passed over. *)
Theorem C76_unknown_refused : forall n dims, (forall v, In v variants -> ~ same_name (np_op n) v) -> import n dims = None.
Proof.
  intros n dims H. unfold import. destruct (from_str (np_op n)) as [v|] eqn:E; [|reflexivity].
  apply from_str_ok in E. destruct E as [H1 H2]. exfalso. exact (H v H1 H2).
Qed.
Print Assumptions C76_unknown_refused.

(** Full statement: every operator that the importer accepts gets code.  It is
    false for three operators, and for no others. *)
Lemma dispatch_covers : forallb (fun p => existsb (String.eqb (fst p)) (["GlobalMaxPool"; "Scatter"; "Unique"] ++ dispatched)%list) registry = true.
Proof. vm_compute. reflexivity. Qed.
Theorem C76_accepted_has_code_partial : forall n dims v, import n dims = Some v ->
  ~ In v ["GlobalMaxPool"; "Scatter"; "Unique"] -> compile n dims = Some v.
Proof.
  intros n dims v H Hn. unfold compile. rewrite H. unfold import in H.
  destruct (from_str (np_op n)) as [u|]; [|discriminate H]. destruct (remap u dims) as [w|]; [|discriminate H].
  destruct (processor w) as [p|] eqn:E3; [|discriminate H]. pose proof (processor_builds _ _ _ E3 H) as ->.
  unfold processor in E3. destruct (find _ registry) as [q|] eqn:E; [|discriminate E3].
  apply find_some in E. destruct E as [Hin Hq]. apply String.eqb_eq in Hq. subst w.
  pose proof dispatch_covers as G. rewrite forallb_forall in G. specialize (G q Hin).
  apply existsb_exists in G. destruct G as [x [Hx Ex]]. apply String.eqb_eq in Ex. subst x.
  apply in_app_or in Hx. destruct Hx as [Hx|Hx]; [contradiction|].
  unfold generate. destruct (find (String.eqb (fst q)) dispatched) as [y|] eqn:F.
  - apply find_some in F. destruct F as [_ F]. apply String.eqb_eq in F. congruence.
  - exfalso. apply (find_none _ _ F) in Hx. rewrite String.eqb_refl in Hx. discriminate Hx.
Qed.
Print Assumptions C76_accepted_has_code_partial.

Theorem C76_accepted_has_code_refuted : exists n dims v, import n dims = Some v /\ compile n dims = None.
Proof. exists (mkProto "" "GlobalMaxPool"), None, "GlobalMaxPool". vm_compute. split; reflexivity. Qed.
Print Assumptions C76_accepted_has_code_refuted.

(** The importer builds no node for a name it knows but has no processor for,
    such as [Einsum] or [LRN]. *)
Theorem C76_unregistered_refused : forall n dims v, import n dims = Some v -> In v (map fst registry).
Proof.
  intros n dims v H. unfold import in H.
  destruct (from_str (np_op n)) as [u|]; [|discriminate H]. destruct (remap u dims) as [w|]; [|discriminate H].
  destruct (processor w) as [p|] eqn:E3; [|discriminate H]. pose proof (processor_builds _ _ _ E3 H) as ->.
  unfold processor in E3. destruct (find _ registry) as [q|] eqn:E; [|discriminate E3].
  apply find_some in E. destruct E as [Hin Hq]. apply String.eqb_eq in Hq. subst w. apply in_map. exact Hin.
Qed.
Print Assumptions C76_unregistered_refused.

(** Full statement: only operators of ONNX's own domain get the code of ONNX's
    operators.  False: the domain is not read, and a node of another domain gets
    the code of the ONNX operator of the same name. *)
Theorem C76_foreign_domain_refuted : exists n dims v, ~ onnx_domain (np_domain n) /\ compile n dims = Some v.
Proof.
  exists (mkProto "com.microsoft" "Attention"), None, "Attention". split; [|vm_compute; reflexivity].
  intros [H|H]; discriminate H.
Qed.
Print Assumptions C76_foreign_domain_refuted.

(** Names of the importer's own, which are no operators of ONNX, get code too. *)
Theorem C76_internal_name_refuted : exists n dims v, In (np_op n) ["Linear"; "Conv2d"; "MaxPool1d"] /\ compile n dims = Some v.
Proof. exists (mkProto "" "Linear"), None, "Linear". split; [cbn; tauto|vm_compute; reflexivity]. Qed.
Print Assumptions C76_internal_name_refuted.

(** ** Cases *)
Example C76_lstm : compile (mkProto "" "LSTM") None = Some "Lstm".
Proof. vm_compute. reflexivity. Qed.
Example C76_conv : compile (mkProto "" "Conv") (Some 2) = Some "Conv2d".
Proof. vm_compute. reflexivity. Qed.
Example C76_conv_4d : import (mkProto "" "Conv") (Some 4) = None.
Proof. vm_compute. reflexivity. Qed.
Example C76_einsum : import (mkProto "" "Einsum") None = None.
Proof. vm_compute. reflexivity. Qed.
Example C76_not_an_operator : forall v, In v variants -> ~ same_name "NoSuchOp" v.
Proof.
  assert (G : forallb (fun v => negb (String.eqb (lower "NoSuchOp") (lower v))) variants = true) by (vm_compute; reflexivity).
  rewrite forallb_forall in G. intros v Hv H. specialize (G v Hv). apply negb_true_iff, String.eqb_neq in G. exact (G H).
Qed.
