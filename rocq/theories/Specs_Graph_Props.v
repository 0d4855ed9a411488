(** C80 for whole graphs: the type inference of Infer_Model, run with the
    specifications of the registered operators, refuses every graph with a node
    that its operator does not allow, wherever it stands. *)
From Verif Require Import IR_Model Infer_Model.
From Verif Require Specs_Model Specs_Spec Specs_Props.
From Coq Require Import NArith ZArith String List Lia Bool.
Import ListNotations.
Local Open Scope string_scope.
Local Open Scope list_scope.
Local Open Scope N_scope.

(** The specifications of Specs_Model as those of Infer_Model (both model the
    same types of crates/onnx-ir/src/processor.rs:16-63). *)
Fixpoint tr_in (s : Specs_Model.input_spec) : input_spec :=
  match s with
  | Specs_Model.IExact n => IExact n
  | Specs_Model.IAtLeast n => IAtLeast n
  | Specs_Model.IRange lo hi => IRange lo hi
  | Specs_Model.IDep rows => IOpset (map (fun p => (fst p, tr_in (snd p))) rows)
  end.
Fixpoint tr_out (s : Specs_Model.output_spec) : output_spec :=
  match s with
  | Specs_Model.OExact n => OExact n
  | Specs_Model.ORange lo hi => ORange lo hi
  | Specs_Model.ODep rows => OOpset (map (fun p => (fst p, tr_out (snd p))) rows)
  end.
Definition tr (s : Specs_Model.node_spec) : node_spec :=
  mkSpec (Specs_Model.min_opset s) (Specs_Model.max_opset s) (tr_in (Specs_Model.spec_inputs s)) (tr_out (Specs_Model.spec_outputs s)).
(** crates/onnx-ir/src/registry.rs:94-99 [get] and the [spec] of the processor. *)
Definition registered_spec (t : string) : node_spec := tr (Specs_Model.lookup_spec t Specs_Model.standard_specs).

(** What the check reads of a node. *)
Definition view (n : rnode) : Specs_Model.spec_node :=
  Specs_Model.mkSpecNode (N.of_nat (length (ninputs n))) (N.of_nat (length (noutputs n)))
    (match get_attr n "__onnx_input_count" with Some (AInt z) => Some z | _ => None end).

Definition is_none {A} (o : option A) : bool := match o with None => true | Some _ => false end.

Lemma applicable_pick {A B} (f : A -> B) (ok : B -> bool) (ans : A -> option Specs_Model.spec_error) opset : forall rows best,
  (forall v s, In (v, s) rows -> ok (f s) = is_none (ans s)) ->
  applicable opset (map (fun p => (fst p, ok (snd p))) (map (fun p => (fst p, f (snd p))) rows))
    (option_map (fun b => (fst b, is_none (snd b))) best) =
  option_map (fun b => (fst b, is_none (snd b))) (Specs_Props.pick ans opset rows best).
Proof.
  induction rows as [|[v s] r IH]; intros best H; [reflexivity|].
  cbn [map applicable Specs_Props.pick fst snd].
  rewrite <- IH by (intros u t Hu; apply (H u t); now right).
  rewrite (H v s (or_introl eq_refl)). unfold Specs_Props.pick_step.
  destruct (v <=? opset); [|reflexivity]. destruct best as [[b e]|]; [|reflexivity].
  cbn [option_map fst snd]. destruct (b <=? v); reflexivity.
Qed.

Lemma input_agree a opset : forall s,
  input_ok opset a (tr_in s) = is_none (Specs_Model.validate_input_spec a opset s).
Proof.
  fix IH 1. intros [e|m|lo hi|rows].
  - cbn. destruct (a =? e); reflexivity.
  - cbn. destruct (a <? m); reflexivity.
  - cbn. destruct ((a <? lo) || (hi <? a)); reflexivity.
  - assert (F : forall v s, In (v, s) rows -> input_ok opset a (tr_in s) = is_none (Specs_Model.validate_input_spec a opset s)).
    { induction rows as [|[u t] r IHr]; intros v s [].
      - injection H as <- <-. apply IH.
      - apply (IHr _ _ H). }
    rewrite Specs_Props.input_dep. cbn [tr_in input_ok].
    pose proof (applicable_pick tr_in (input_ok opset a) (Specs_Model.validate_input_spec a opset) opset rows None F) as E.
    cbn [option_map] in E. rewrite E.
    destruct (Specs_Props.pick _ opset rows None) as [[v e]|]; reflexivity.
Qed.
Lemma output_agree a opset : forall s,
  output_ok opset a (tr_out s) = is_none (Specs_Model.validate_output_spec a opset s).
Proof.
  fix IH 1. intros [e|lo hi|rows].
  - cbn. destruct (a =? e); reflexivity.
  - cbn. destruct ((a <? lo) || (hi <? a)); reflexivity.
  - assert (F : forall v s, In (v, s) rows -> output_ok opset a (tr_out s) = is_none (Specs_Model.validate_output_spec a opset s)).
    { induction rows as [|[u t] r IHr]; intros v s [].
      - injection H as <- <-. apply IH.
      - apply (IHr _ _ H). }
    rewrite Specs_Props.output_dep. cbn [tr_out output_ok].
    pose proof (applicable_pick tr_out (output_ok opset a) (Specs_Model.validate_output_spec a opset) opset rows None F) as E.
    cbn [option_map] in E. rewrite E.
    destruct (Specs_Props.pick _ opset rows None) as [[v e]|]; reflexivity.
Qed.
Lemma count_agree n : onnx_input_count n = Specs_Model.get_onnx_input_count (view n).
Proof.
  unfold onnx_input_count, Specs_Model.get_onnx_input_count, view. cbn [Specs_Model.nd_count_attr Specs_Model.nd_inputs].
  destruct (get_attr n "__onnx_input_count") as [[]|]; reflexivity.
Qed.
Lemma node_agree n opset s : validate_node_spec n opset (tr s) = is_none (Specs_Model.validate_node_spec (view n) opset s).
Proof.
  unfold validate_node_spec, Specs_Model.validate_node_spec, tr. cbn [min_opset max_opset in_spec out_spec].
  rewrite count_agree, input_agree, output_agree.
  change (Specs_Model.nd_outputs (view n)) with (N.of_nat (length (noutputs n))).
  destruct (opset <? Specs_Model.min_opset s); [reflexivity|]. cbn [negb andb].
  destruct (Specs_Model.max_opset s) as [m|]; [destruct (m <? opset)|]; cbn [negb andb]; try reflexivity;
  destruct (Specs_Model.validate_input_spec _ _ _); cbn [is_none andb]; reflexivity.
Qed.

(** Passing types on changes nothing the check reads. *)
Definition same_view (n m : rnode) : Prop := ntype m = ntype n /\ view m = view n.
Lemma sync_view name ty n : same_view n (fst (sync_node name ty n)).
Proof.
  unfold sync_node, map_flag. cbn [fst]. split; [reflexivity|]. unfold view, set_inputs, get_attr. cbn. now rewrite map_length.
Qed.
Lemma push_view : forall outs rest, Forall2 same_view rest (fst (push_outputs outs rest)).
Proof.
  induction outs as [|o r IH]; intros rest; cbn [push_outputs].
  - cbn [fst]. induction rest; constructor; auto. split; reflexivity.
  - unfold map_flag. specialize (IH (map (fun x => fst (sync_node (aname o) (aty o) x)) rest)).
    destruct (push_outputs r _) as [rest2 c2]. cbn [fst] in *.
    revert rest2 IH. induction rest as [|n rest IHr]; intros rest2 H; inversion H as [|? m ? l [E1 E2] Hl]; subst; constructor; auto.
    destruct (sync_view (aname o) (aty o) n) as [E3 E4]. split; [exact (eq_trans E1 E3)|exact (eq_trans E2 E4)].
Qed.

Section Run.
Variable infer : rnode -> list pkey -> option rnode.
Variable wants : rnode -> string -> list pref.
Variable opset : N.
Definition passes (n : rnode) : Prop := Specs_Model.check_node (ntype n) (view n) opset = None.
Lemma sweep_passes : forall fuel pf todo r, sweep infer registered_spec opset fuel pf todo = Some r -> Forall passes todo.
Proof.
  induction fuel as [|f IH]; intros pf [|n rest] r H; cbn [sweep] in H; try constructor; try discriminate H.
  - destruct (validate_node_spec n opset (registered_spec (ntype n))) eqn:E; [|discriminate H].
    unfold registered_spec in E. rewrite node_agree in E. unfold passes, Specs_Model.check_node.
    destruct (Specs_Model.validate_node_spec _ _ _); [discriminate E|reflexivity].
  - destruct (validate_node_spec n opset (registered_spec (ntype n))); [|discriminate H].
    destruct (infer n (pf n)) as [n'|]; [|discriminate H]. destruct (no_rank_zero n'); [|discriminate H].
    pose proof (push_view (noutputs n') rest) as V. destruct (push_outputs (noutputs n') rest) as [rest' c]. cbn [fst] in V.
    destruct (sweep infer registered_spec opset f pf rest') as [[d c']|] eqn:E; [|discriminate H].
    specialize (IH _ _ _ E). clear -IH V. induction V as [|x y l l' [H1 H2] Hl IHl]; constructor.
    + inversion IH; subst. unfold passes in *. congruence.
    + apply IHl. inversion IH; auto.
Qed.

Lemma graph_passes : forall nodes r, infer_types infer wants registered_spec opset nodes = Some r -> Forall passes nodes.
Proof.
  intros nodes r H. unfold infer_types in H. cbn [iterate] in H. unfold iteration at 1 in H. cbv zeta in H.
  destruct (sweep infer registered_spec opset (length nodes) (prefs_for nodes []) nodes) eqn:E; [|discriminate H].
  exact (sweep_passes _ _ _ _ E).
Qed.
End Run.

(** Type inference of a graph with one node, anywhere, that its operator does
    not allow never succeeds, whatever the processors of the other nodes do. *)
Theorem C80_graph_refused : forall infer wants opset before n after e,
  Specs_Model.check_node (ntype n) (view n) opset = Some e ->
  infer_types infer wants registered_spec opset (before ++ n :: after) = None.
Proof.
  intros infer wants opset before n after e H.
  destruct (infer_types infer wants registered_spec opset (before ++ n :: after)) as [r|] eqn:E; [|reflexivity].
  apply graph_passes in E. apply Forall_app in E. destruct E as [_ E]. inversion E as [|? ? P ?]. unfold passes in P. congruence.
Qed.
Print Assumptions C80_graph_refused.

(** So a graph in which type inference succeeds has only nodes of the numbers of
    inputs and outputs that ONNX gives them, for the operators listed as strict. *)
Theorem C80_graph_partial : forall infer wants opset nodes r n op ts sigs,
  infer_types infer wants registered_spec opset nodes = Some r -> In n nodes ->
  In (op, ts, sigs) Specs_Spec.standard -> In (ntype n) ts -> In op Specs_Spec.strict ->
  get_attr n "__onnx_input_count" = None ->
  Specs_Spec.onnx_allows sigs opset (N.of_nat (length (ninputs n))) (N.of_nat (length (noutputs n))) = true.
Proof.
  intros infer wants opset nodes r n op ts sigs H Hn Hs Ht Hop Ha.
  pose proof (graph_passes _ _ _ _ _ H) as P. rewrite Forall_forall in P. specialize (P n Hn). unfold passes, view in P. rewrite Ha in P.
  destruct (Specs_Spec.onnx_allows sigs opset _ _) eqn:E; [reflexivity|].
  destruct (Specs_Props.C80_wrong_refused_partial _ _ _ _ _ _ _ Hs Ht Hop E) as [e He]. congruence.
Qed.
Print Assumptions C80_graph_partial.

(** ** Case: a graph of two nodes, with an addition of two and of three values. *)
Definition f32 (x : string) : arg := mkArg x (TensorT (mkTT F32 2 None)) VDynamic.
Definition add2 := mkNode "Add" "add1" [f32 "a"; f32 "b"] [f32 "c"] [].
Definition add3 := mkNode "Add" "add2" [f32 "a"; f32 "b"; f32 "c"] [f32 "d"] [].
Example C80_graph_case :
  infer_types (fun n _ => Some n) (fun _ _ => []) registered_spec 17 [add2; add3] = None /\
  infer_types (fun n _ => Some n) (fun _ _ => []) registered_spec 17 [add2] <> None /\
  Specs_Model.check_node (ntype add3) (view add3) 17 = Some (Specs_Model.InvalidInputCount 2 3).
Proof. repeat split; vm_compute; discriminate. Qed.
