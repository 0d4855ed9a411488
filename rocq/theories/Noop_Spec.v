(** Vocabulary for the removal of no-ops. *)
From Verif Require Import IR_Model.

(** The argument is read from the environment. *)
Definition by_name (a : arg) : Prop := asrc a = VConstant \/ asrc a = VDynamic.

(** In the execution that ends in [ef], every no-op copies its first input,
    which is a named value, to its first output. *)
Definition noops_copy {V} (is_noop : rnode -> bool) (nodes : list rnode) (ef : string -> option V) : Prop :=
  forall n i is o os, In n nodes -> is_noop n = true -> ninputs n = i :: is -> noutputs n = o :: os ->
    by_name i /\ ef (aname i) = ef (aname o).

(** No node and no graph output reads a second or later output of a no-op. *)
Definition extra_outputs_unread (is_noop : rnode -> bool) (nodes : list rnode) (outputs : list arg) : Prop :=
  forall n o os x, In n nodes -> is_noop n = true -> ninputs n <> [] -> noutputs n = o :: os -> In x os ->
    (forall r i, In r nodes -> In i (ninputs r) -> aname i <> aname x) /\
    (forall g, In g outputs -> aname g <> aname x).

(** The ONNX name recorded for the first output of a no-op is not empty, and
    is not the name of another value of the graph. *)
Definition no_capture {V} (is_noop : rnode -> bool) (nodes : list rnode)
    (onnx_names : list (string * (nat * nat))) (ef : string -> option V) : Prop :=
  forall k idx n, In (k, (idx, 0)) onnx_names -> nth_error nodes idx = Some n -> is_noop n = true ->
    k <> EmptyString /\ (hd_error (map aname (noutputs n)) = Some k \/ ef k = None).

(** Every value a node produces is read by its name. *)
Definition outputs_by_name (nodes : list rnode) : Prop :=
  forall n o, In n nodes -> In o (noutputs n) -> by_name o.

(** [order] lists the entries of a hash map, once each, in some order. *)
Definition iterates {A} (order : list (string * A)) (m : smap A) : Prop :=
  NoDup (map fst order) /\ forall k v, In (k, v) order <-> sget m k = Some v.

(** ** Constants *)
From Verif Require Import Noop_Model.

(** The importer's constants: one output. *)
Definition constants_have_one_output (nodes : list rnode) : Prop :=
  forall n, In n nodes -> ntype n = "Constant"%string -> exists o, noutputs n = [o].

(** Some node or graph output reads the name from the environment. *)
Definition read_in (nodes : list rnode) (outputs : list arg) (x : string) : Prop :=
  (exists n i, In n nodes /\ In i (ninputs n) /\ by_name i /\ aname i = x) \/
  (exists g, In g outputs /\ by_name g /\ aname g = x).

(** Reads of a finished node: its own inputs without the outer-scope list, or
    a read inside one of its subgraphs.  [P] selects the arguments. *)
Inductive greads (P : arg -> Prop) : gnode -> string -> Prop :=
| greads_input b k subs i : In i (firstn (length (ninputs b) - k) (ninputs b)) -> P i ->
    greads P (mkG b k subs) (aname i)
| greads_sub b k subs ns os g x : In (ns, os) subs -> In g ns -> greads P g x ->
    greads P (mkG b k subs) x
| greads_subout b k subs ns os o : In (ns, os) subs -> In o os -> P o ->
    greads P (mkG b k subs) (aname o).
Definition graph_reads (P : arg -> Prop) (nodes : list gnode) (outputs : list arg) (x : string) : Prop :=
  (exists g, In g nodes /\ greads P g x) \/ (exists o, In o outputs /\ P o /\ aname o = x).
