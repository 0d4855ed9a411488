(** C39: coalescing attention. *)
From Flocq Require Import Core BinarySingleNaN.
From Verif Require Import IR_Model IR_Spec Passes_Model Attention_Spec Attention_Model Attention_Cond Attention_Match Attention_Graph Attention_Demo Attention_Bad.
From Verif Require Import Tensor_Spec.
From Coq Require Import Lra Lia.
Open Scope string_scope. Open Scope list_scope. Open Scope N_scope.

(** Missing in the theorems below named _partial: real numbers instead of
    floating point; tensors whose first two dimensions are broadcast by MatMul;
    the graphs outside [attention_graph], for which C39 is refuted below. *)

(** The new graph computes every value of the old one, when no product of
    scaled operands was found. *)
Theorem C39_coalesce_preserves_partial :
  forall scalar (sem : rsem) (static : N -> option rt) nodes nodes' (inputs e : string -> option rt),
  attention_laws sem -> ssa inputs nodes -> apart nodes -> run sem static inputs nodes = Some e ->
  attention_graph scalar static nodes nodes' e ->
  coalesce_attention scalar nodes = Done nodes' ->
  (forall i n, nth_error nodes' i = Some n -> ntype n = "Transpose" -> nth_error nodes i = Some n) ->
  exists e', run sem static inputs nodes' = Some e' /\ forall x, e' x = e x.
Proof. exact standard_runs. Qed.
Print Assumptions C39_coalesce_preserves_partial.

Example C39_chain : forall dq dk dv m,
  exists e e', run demo_sem chain_static (chain_given dq dk dv m) chain = Some e /\
    run demo_sem chain_static (chain_given dq dk dv m) (coalesced chain) = Some e' /\ (forall x, e' x = e x) /\
    map ntype (coalesced chain) = ["Transpose"; "MatMul"; "Div"; "Add"; "Softmax"; "Attention"].
Proof.
  intros dq dk dv m. exists (ran (chain_given dq dk dv m) chain).
  destruct (C39_coalesce_preserves_partial chain_scalar demo_sem chain_static chain (coalesced chain) (chain_given dq dk dv m) _
    demo_laws (chain_ssa dq dk dv m) chain_apart (chain_runs dq dk dv m) (chain_graph dq dk dv m) chain_pass) as (e' & H1 & H2).
  - intros i n H Ht. revert H. repeat (destruct i as [|i]; [cbn; intros H; injection H as <-; first [discriminate Ht | reflexivity]|]).
    cbn. intros H. destruct i; discriminate.
  - exists e'. split; [apply chain_runs|]. split; [exact H1|]. split; [exact H2|reflexivity].
Qed.

(** With scaled operands the name of the scores disappears.  The nodes left
    when dead nodes are removed compute the outputs, unless one of them reads
    a name that disappeared. *)
Theorem C39_coalesce_then_dead_nodes_partial :
  forall scalar (sem : rsem) (static : N -> option rt) nodes nodes' (inputs e : string -> option rt) outputs,
  attention_laws sem -> ssa inputs nodes -> apart nodes -> run sem static inputs nodes = Some e ->
  attention_graph scalar static nodes nodes' e ->
  coalesce_attention scalar nodes = Done nodes' ->
  let kept := eliminate_dead_nodes nodes' outputs in
  (forall n x, In n kept -> reads n x -> In x (produced nodes) -> In x (produced nodes')) ->
  (forall o, In o outputs -> inputs (aname o) <> None \/ In (aname o) (produced nodes) /\ In (aname o) (produced nodes')) ->
  exists e', run sem static inputs kept = Some e' /\ forall o, In o outputs -> e' (aname o) = e (aname o).
Proof. intros. eapply dead_runs; eassumption. Qed.
Print Assumptions C39_coalesce_then_dead_nodes_partial.

Example C39_prechain : forall dq dk dv,
  exists e e', run demo_sem chain_static (prechain_given dq dk dv) prechain = Some e /\
    run demo_sem chain_static (prechain_given dq dk dv) (eliminate_dead_nodes (coalesced prechain) [t4 "out"]) = Some e' /\ e' "out" = e "out" /\
    map ntype (eliminate_dead_nodes (coalesced prechain) [t4 "out"]) = ["Transpose"; "Transpose"; "Transpose"; "Attention"].
Proof.
  intros dq dk dv. exists (ran (prechain_given dq dk dv) prechain).
  destruct (C39_coalesce_then_dead_nodes_partial chain_scalar demo_sem chain_static prechain (coalesced prechain) (prechain_given dq dk dv) _ [t4 "out"]
    demo_laws (prechain_ssa dq dk dv) prechain_apart (prechain_runs dq dk dv) (prechain_graph dq dk dv) prechain_pass) as (e' & H1 & H2).
  - intros n x Hn (a & Ha & <- & _) Hx. vm_compute in Hn. each_in Hn; cbn in Ha; each_in Ha; cbn in Hx; each_in Hx; try discriminate Hx; cbn; auto 10.
  - intros o [<-|[]]. right. split; cbn; tauto.
  - exists e'. split; [apply prechain_runs|]. split; [exact H1|]. split; [exact (H2 _ (or_introl eq_refl))|reflexivity].
Qed.

(** Any part of the new graph that has what it reads gives the same values. *)
Theorem C39_part_preserved_partial :
  forall scalar (sem : rsem) (static : N -> option rt) nodes nodes' (inputs e : string -> option rt),
  attention_laws sem -> ssa inputs nodes -> apart nodes -> run sem static inputs nodes = Some e ->
  attention_graph scalar static nodes nodes' e ->
  coalesce_attention scalar nodes = Done nodes' ->
  forall kept, part kept nodes' -> self_contained inputs kept ->
  exists e', run sem static inputs kept = Some e' /\
    forall x, (inputs x <> None \/ In x (produced kept)) ->
      (exists v, e' x = Some v /\ e x = Some v) \/ (exists n, In n nodes /\ ntype n = "MatMul" /\ x = new_name n).
Proof. exact part_runs. Qed.
Print Assumptions C39_part_preserved_partial.

(** For every graph: only MatMul nodes are replaced, one for one, and only by
    Attention nodes with the same outputs, reading a Softmax used once, or by
    Transpose nodes in the place of a product used once. *)
Theorem C39_only_products_replaced : forall scalar nodes nodes',
  coalesce_attention scalar nodes = Done nodes' ->
  length nodes' = length nodes /\
  forall i n r, nth_error nodes i = Some n -> nth_error nodes' i = Some r -> r <> n ->
    ntype n = "MatMul" /\
    ((ntype r = "Attention" /\ noutputs r = noutputs n /\
      exists sm o, In sm nodes /\ ntype sm = "Softmax" /\ In o (noutputs sm) /\ uses nodes (aname o) = 1%nat /\ In (aname o) (map aname (ninputs n))) \/
     (ntype r = "Transpose" /\ map aname (noutputs r) = [new_name n] /\
      exists o rest, noutputs n = o :: rest /\ uses nodes (aname o) = 1%nat)).
Proof.
  intros scalar nodes nodes' H. split; [exact (same_length scalar nodes nodes' H)|]. intros i n r. apply (replaced_what scalar); exact H.
Qed.
Print Assumptions C39_only_products_replaced.
Example C39_replaced_example :
  coalesce_attention chain_scalar prechain = Done (coalesced prechain) /\
  option_map ntype (nth_error prechain 4) = Some "MatMul" /\ option_map ntype (nth_error (coalesced prechain) 4) = Some "Transpose" /\
  option_map ntype (nth_error prechain 6) = Some "MatMul" /\ option_map ntype (nth_error (coalesced prechain) 6) = Some "Attention".
Proof. repeat split. Qed.

(** ** Chains whose result changes *)

(** Without a scale the Attention node divides by the root of the width. *)
Theorem C39_unscaled_refuted : exists nodes nodes' inputs,
  coalesce_attention chain_scalar nodes = Done nodes' /\ differ chain_static inputs nodes nodes'.
Proof. exists unscaled, (coalesced unscaled), unscaled_given. split; [reflexivity|exact unscaled_differ]. Qed.
Print Assumptions C39_unscaled_refuted.

(** A 64-bit scale is rounded to 32 bits. *)
Theorem C39_scale_rounded_refuted : exists nodes nodes' inputs,
  coalesce_attention fine_scalar nodes = Done nodes' /\ differ fine_static inputs nodes nodes'.
Proof. exists scaled, (coalesced_by fine_scalar scaled), small_given. split; [reflexivity|exact fine_differ]. Qed.
Print Assumptions C39_scale_rounded_refuted.

(** The first element of a vector of constants is taken for the scale. *)
Theorem C39_vector_scale_refuted : exists nodes nodes' inputs,
  vector_static 0 = Some (mkT [2] [1; 2]%R) /\
  coalesce_attention vector_scalar nodes = Done nodes' /\ differ vector_static inputs nodes nodes'.
Proof. exists scaled, (coalesced_by vector_scalar scaled), ones_given. split; [reflexivity|]. split; [reflexivity|exact vector_differ]. Qed.
Print Assumptions C39_vector_scale_refuted.

(** When operands and scores are scaled, the scale of the scores is dropped. *)
Theorem C39_two_scales_refuted : exists nodes nodes' inputs,
  coalesce_attention chain_scalar nodes = Done nodes' /\ differ chain_static inputs nodes (eliminate_dead_nodes nodes' [t4 "out"]).
Proof. exists twice, (coalesced twice), twice_given. split; [reflexivity|exact twice_differ]. Qed.
Print Assumptions C39_two_scales_refuted.

(** A mask of rank 3 is aligned with the first dimension instead of the second. *)
Theorem C39_mask_rank3_refuted : exists nodes nodes' inputs,
  coalesce_attention chain_scalar nodes = Done nodes' /\ differ chain_static inputs nodes nodes'.
Proof. exists masked3, (coalesced masked3), masked3_given. split; [reflexivity|exact masked3_differ]. Qed.
Print Assumptions C39_mask_rank3_refuted.

(** When the attention weights are an output of the graph, the node that
    computes them is left without its input. *)
Theorem C39_weights_output_refuted : exists nodes nodes' inputs e,
  attention_graph chain_scalar chain_static nodes nodes' e /\
  run demo_sem chain_static inputs nodes = Some e /\ e "p" <> None /\
  coalesce_attention chain_scalar nodes = Done nodes' /\
  run demo_sem chain_static inputs (eliminate_dead_nodes nodes' [t4 "out"; t4 "p"]) = None.
Proof.
  exists prechain, (coalesced prechain), (prechain_given [] [] []), (ran (prechain_given [] [] []) prechain).
  split; [apply prechain_graph|]. split; [apply prechain_runs|]. split; [|split; [reflexivity|]].
  - intros H. apply (f_equal (fun o : option rt => if o then true else false)) in H. lazy -[exp Rplus Rmult Rdiv Rinv IZR] in H. discriminate.
  - lazy -[exp Rplus Rmult Rdiv Rinv IZR]. reflexivity.
Qed.
Print Assumptions C39_weights_output_refuted.
