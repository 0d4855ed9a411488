(** C40: the optimisation loop. *)
From Coq Require Import Lia.
From Verif Require Import Simplify_Spec Simplify_Proofs.
Open Scope string_scope. Open Scope list_scope. Open Scope N_scope.

(** No round adds a node, and the graph outputs keep their names. *)
Theorem C40_round_never_grows : forall dbg g g', round dbg g = Done g' ->
  (length (gs_nodes g') <= length (gs_nodes g))%nat /\ map aname (gs_outputs g') = map aname (gs_outputs g).
Proof. intros dbg g g' H. exact (round_le dbg g g' H). Qed.
Print Assumptions C40_round_never_grows.

(** The loop ends after [k] shrinking rounds, when ten are done, or after one
    more round that removed nothing.  Inputs and output names are kept. *)
Theorem C40_terminates : forall dbg inputs g g' inputs', simplify_graph dbg inputs g = Done (g', inputs') ->
  inputs' = inputs /\ map aname (gs_outputs g') = map aname (gs_outputs g) /\
  (length (gs_nodes g') <= length (gs_nodes g))%nat /\
  exists k m, shrinks (round dbg) k g m /\
    ((k = 10%nat /\ g' = m) \/ ((k < 10)%nat /\ round dbg m = Done g' /\ length (gs_nodes g') = length (gs_nodes m))).
Proof.
  intros dbg inputs g g' inputs' H. destruct (simplify_inv _ _ _ _ _ H) as [-> Hr]. split; [reflexivity|].
  destruct (rounds_done _ _ _ _ Hr) as (k & m & Hs & Hc).
  pose proof (shrinks_size _ _ _ _ Hs) as Hz. pose proof (shrinks_outputs _ _ _ _ Hs) as Ho. unfold size in *.
  split; [destruct Hc as [[_ ->]|(_ & Hl & _)]; [exact Ho|rewrite <- Ho; eapply round_le; exact Hl]|].
  split; [destruct Hc as [[_ ->]|(_ & _ & Hl)]; unfold size in *; lia|]. exists k, m. split; [exact Hs|exact Hc].
Qed.
Print Assumptions C40_terminates.

(** The loop always gives a result unless one of the passes panics: the count
    of removed nodes is never negative. *)
Theorem C40_no_overflow : forall dbg inputs g,
  (exists r, simplify_graph dbg inputs g = Done r) \/
  (exists k m, (k < 10)%nat /\ shrinks (round dbg) k g m /\ round dbg m = Panic).
Proof.
  intros dbg inputs g. unfold simplify_graph, emap. destruct (rounds dbg max_iterations g) as [| |g'] eqn:E.
  - exfalso. exact (rounds_not_skip _ _ _ E).
  - right. exact (rounds_panic _ _ _ E).
  - left. eexists. reflexivity.
Qed.
Print Assumptions C40_no_overflow.

(** A graph of fewer than ten nodes is simplified until a round removes nothing. *)
Theorem C40_small_graphs : forall dbg inputs g g' inputs', (length (gs_nodes g) < 10)%nat ->
  simplify_graph dbg inputs g = Done (g', inputs') ->
  exists m, round dbg m = Done g' /\ length (gs_nodes g') = length (gs_nodes m).
Proof.
  intros dbg inputs g g' inputs' Hl H. destruct (C40_terminates _ _ _ _ _ H) as (_ & _ & _ & k & m & Hs & Hc).
  apply shrinks_size in Hs. unfold size in Hs. destruct Hc as [[-> _]|(_ & Hr & Hz)]; [lia|]. eauto.
Qed.
Print Assumptions C40_small_graphs.

(** A chain of Relu and additions of zero.  The sum is a graph output, so the
    first round only redirects its reader; the loop stops, although another
    round would remove a node. *)
Definition it : argty := TensorT (mkTT I64 1 (Some [Some 1])).
Definition v (x : string) : arg := mkArg x it VDynamic.
Definition c40_nodes : list rnode :=
  [mkNode "Constant" "c" [mkArg "" it (VStatic 0)] [mkArg "zero" it VConstant] [];
   mkNode "Relu" "r1" [v "x"] [v "r"] [];
   mkNode "Add" "a1" [v "r"; mkArg "zero" it VConstant] [v "y"] [];
   mkNode "Relu" "r2" [v "y"] [v "z"] [];
   mkNode "Neg" "n1" [v "z"] [v "w"] []].
Definition c40_store : store := mkStore 1 [(0, mkFD [1] (XI64 [0]%Z))] [("zero", 0)].
Definition no_print (_ : attr) : string := "".

Theorem C40_fixed_point_refuted : exists g' g2,
  simplify_graph no_print [v "x"] (mkGS c40_store c40_nodes [v "y"; v "w"]) = Done (g', [v "x"]) /\
  round no_print g' = Done g2 /\ length (gs_nodes g') = 5%nat /\ length (gs_nodes g2) = 4%nat.
Proof. eexists. eexists. split; [vm_compute; reflexivity|]. split; [vm_compute; reflexivity|]. split; reflexivity. Qed.
Print Assumptions C40_fixed_point_refuted.

(** With only the last value as output, two rounds remove nodes and a third one ends the loop. *)
Example C40_ex : exists g', simplify_graph no_print [v "x"] (mkGS c40_store c40_nodes [v "w"]) = Done (g', [v "x"]) /\
  map nname (gs_nodes g') = ["r1"; "n1"] /\ map (fun n => map aname (ninputs n)) (gs_nodes g') = [["x"]; ["r"]] /\
  map aname (gs_outputs g') = ["w"] /\
  exists g1 g2, round no_print (mkGS c40_store c40_nodes [v "w"]) = Done g1 /\ length (gs_nodes g1) = 3%nat /\
    round no_print g1 = Done g2 /\ length (gs_nodes g2) = 2%nat.
Proof.
  eexists. split; [vm_compute; reflexivity|]. split; [reflexivity|]. split; [reflexivity|]. split; [reflexivity|].
  eexists. eexists. split; [vm_compute; reflexivity|]. split; [reflexivity|]. split; [vm_compute; reflexivity|reflexivity].
Qed.
