(** Specification for C01 and C02, independent of the checker. *)
From Verif Require Import Util TopSort_Model.

(** Some node consumes a value name that a strictly later node produces.  The
    empty name marks an absent optional argument. *)
Definition backward_reference (ns : list node_io) : Prop :=
  exists i j producer consumer name,
    nth_error ns i = Some producer /\ nth_error ns j = Some consumer /\
    j < i /\ name <> ""%string /\
    In name (nio_out producer) /\ In name (nio_in consumer).

(** Some node consumes a name it produces itself. *)
Definition self_reference (ns : list node_io) : Prop :=
  exists n name, In n ns /\ name <> ""%string /\ In name (nio_out n) /\ In name (nio_in n).

(** The nodes can be executed in list order when the names in [avail] are
    available at the start: each node finds its (non-optional) inputs and adds
    its outputs. *)
Inductive executable : list string -> list node_io -> Prop :=
| exec_nil avail : executable avail []
| exec_cons avail n ns :
    (forall name, In name (nio_in n) -> name <> ""%string -> In name avail) ->
    executable (nio_out n ++ avail) ns ->
    executable avail (n :: ns).

(** Every consumed name is either supplied from outside or produced by some
    node of the list (anywhere in it). *)
Definition closed_over (avail : list string) (ns : list node_io) : Prop :=
  forall n name, In n ns -> In name (nio_in n) -> name <> ""%string ->
    In name avail \/ exists p, In p ns /\ In name (nio_out p).
