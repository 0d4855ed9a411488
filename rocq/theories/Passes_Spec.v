(** Vocabulary for the graph-pass properties. *)
From Verif Require Import IR_Model.

(** A node is needed when one of its outputs is a graph output, or is read by
    a needed node. *)
Inductive needed (nodes : list rnode) (outputs : list arg) : rnode -> Prop :=
| needed_output n o g :
    In n nodes -> In o (noutputs n) -> In g outputs -> aname g = aname o ->
    needed nodes outputs n
| needed_input n o m i :
    In n nodes -> In o (noutputs n) -> In i (ninputs m) -> aname i = aname o ->
    needed nodes outputs m -> needed nodes outputs n.

(** No node reads a name that it or a later node produces. *)
Fixpoint ordered (nodes : list rnode) : Prop :=
  match nodes with
  | [] => True
  | n :: s => (forall i m, In i (ninputs n) -> In m (n :: s) -> ~ In (aname i) (map aname (noutputs m)))
              /\ ordered s
  end.

(** Argument names as the importer makes them: outputs have a name, absent
    and embedded inputs have none, the others have one. *)
Definition well_named (nodes : list rnode) : Prop :=
  forall n, In n nodes ->
    (forall o, In o (noutputs n) -> aname o <> EmptyString) /\
    (forall i, In i (ninputs n) ->
       match asrc i with
       | VStatic _ | VOptional => aname i = EmptyString
       | VConstant | VDynamic => aname i <> EmptyString
       end).

(** The same, but embedded inputs may have any name that is not the name of an
    output (folding makes such names). *)
Definition named_apart (nodes : list rnode) : Prop :=
  forall n, In n nodes ->
    (forall o, In o (noutputs n) -> aname o <> EmptyString) /\
    (forall i, In i (ninputs n) ->
       match asrc i with
       | VStatic _ => forall m, In m nodes -> ~ In (aname i) (map aname (noutputs m))
       | VOptional => aname i = EmptyString
       | VConstant | VDynamic => aname i <> EmptyString
       end).

(** Two graphs compute the same: whenever the first runs, so does the second,
    and the results [outs] are equal. *)
Definition preserves {V} (run1 run2 : option (string -> option V)) (outs : list string) : Prop :=
  forall e1, run1 = Some e1 ->
    exists e2, run2 = Some e2 /\ forall x, In x outs -> e2 x = e1 x.

(** The printed form of (non-graph) attributes tells the attributes of these
    nodes apart. *)
Definition dbg_tells (dbg : attr -> string) (nodes : list rnode) : Prop :=
  forall n m, In n nodes -> In m nodes ->
    forall a b, In a (nattrs n) -> In b (nattrs m) ->
      (match snd a with ADeferredGraph _ | ADeferredGraphs _ | AGraph _ => true | _ => false end) = false ->
      (match snd b with ADeferredGraph _ | ADeferredGraphs _ | AGraph _ => true | _ => false end) = false ->
      dbg (snd a) = dbg (snd b) -> snd a = snd b.
