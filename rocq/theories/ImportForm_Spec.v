(** Words for the form of imported nodes. *)
From Verif Require Import IR_Model IR_Spec Names_Model Import_Model Import_Spec.

(** A convolution or pooling node works on [k] spatial dimensions: its kernel
    has [k] sizes, or, if the kernel sizes are not written down, its weight has
    two more dimensions than that. *)
Definition spatial (n : rnode) (k : N) : Prop :=
  (exists l, get_attr n "kernel_shape" = Some (AInts l) /\ N.of_nat (length l) = k) \/
  (get_attr n "kernel_shape" = None /\
   exists a t, nth_error (ninputs n) 1 = Some a /\ aty a = TensorT t /\ tt_rank t = (k + 2)%N).

(** What an input of an imported node may be. *)
Definition resolved (outer : smap arg) (g : pgraph) (ns : list rnode) (ins : list arg) (a : arg) : Prop :=
  (exists id, asrc a = VStatic id) \/
  In a ins \/
  (exists n, In n ns /\ In a (noutputs n)) \/
  (exists x, sget outer x = Some a /\ asrc a = VConstant) \/
  (asrc a <> VConstant /\ exists x, In x (consumed (pg_nodes g)) /\ aname a = san x).
