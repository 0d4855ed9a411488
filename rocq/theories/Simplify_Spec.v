(** Vocabulary for the simplifier as a whole. *)
From Flocq Require Import BinarySingleNaN.
From Verif Require Export Simplify_Model IR_Spec Passes_Spec Fold_Spec.

Definition size (g : graph_state) : nat := length (gs_nodes g).

(** [shrinks k g g']: [k] rounds lead from [g] to [g'], and each of them makes
    the graph smaller. *)
Inductive shrinks (step : graph_state -> ev graph_state) : nat -> graph_state -> graph_state -> Prop :=
| shrinks_none g : shrinks step 0 g g
| shrinks_more k g g1 g' : step g = Done g1 -> (size g1 < size g)%nat -> shrinks step k g1 g' -> shrinks step (S k) g g'.

(** ** Graphs whose simplification is followed *)

(** Names the store has data for are not graph inputs, and only a Constant node
    that carries this data produces them. *)
Definition registered (s : store) (inputs : string -> option fdata) (nodes : list rnode) : Prop :=
  forall x id, sget (st_const s) x = Some id -> inputs x = None /\
    forall m, In m nodes -> In x (map aname (noutputs m)) ->
      exists i o, ntype m = "Constant"%string /\ ninputs m = [i] /\ asrc i = VStatic id /\ noutputs m = [o] /\ aname o = x.

(** No name is another name with the suffix of folded constants. *)
Definition suffix_free (nodes : list rnode) : Prop :=
  forall x y, In x (flat_map (fun n => map aname (noutputs n)) nodes) -> In y (flat_map (fun n => map aname (noutputs n)) nodes) ->
    y <> (x ++ "_const")%string.

(** Arithmetic nodes read their operands by name. *)
Definition arithmetic_ops : list string := ["Add"; "Sub"; "Mul"; "Div"; "Pow"]%string.
Definition by_name (nodes : list rnode) : Prop :=
  forall n i, In n nodes -> In (ntype n) arithmetic_ops -> In i (ninputs n) -> asrc i = VDynamic \/ asrc i = VConstant.

(** Computed from constants and shapes alone. *)
Definition settled_arg (nodes : list rnode) (a : arg) : Prop := asrc a = VDynamic -> settled nodes (aname a).

(** Not empty, and all elements compare equal to [z]. *)
Definition all_equal (z : Z) (x : fdata) : Prop :=
  exists l, to_f64_vec x = Some l /\ l <> [] /\ Forall (fun f => Beqb f (f64_of_Z z) = true) l.

(** In this run, adding or subtracting a constant 0, multiplying or dividing by
    a constant 1 and raising to a constant 1 gives back the other operand. *)
Definition neutral (static : N -> option fdata) (nodes : list rnode) (e : string -> option fdata) : Prop :=
  forall n a b o va vb vo, In n nodes -> ninputs n = [a; b] -> noutputs n = [o] ->
    arg_eval static e a = Some (Some va) -> arg_eval static e b = Some (Some vb) -> e (aname o) = Some vo ->
    (In (ntype n) ["Add"; "Sub"]%string -> settled_arg nodes b -> all_equal 0 vb -> vo = va) /\
    (ntype n = "Add"%string -> settled_arg nodes a -> all_equal 0 va -> vo = vb) /\
    (In (ntype n) ["Mul"; "Div"; "Pow"]%string -> settled_arg nodes b -> all_equal 1 vb -> vo = va) /\
    (ntype n = "Mul"%string -> settled_arg nodes a -> all_equal 1 va -> vo = vb).

(** In this run, Slice nodes that compute with constants and shapes alone go forward. *)
Definition forward_steps (static : N -> option fdata) (nodes : list rnode) (e : string -> option fdata) : Prop :=
  forall n a v ks, In n nodes -> ntype n = "Slice"%string -> settled_inputs nodes n -> nth_error (ninputs n) 4 = Some a ->
    arg_eval static e a = Some (Some v) -> to_i64_vec v = Some ks -> Forall (fun k => 0 < k)%Z ks.

(** Nothing for the attention and the permute-reshape pass to do. *)
Definition no_attention (nodes : list rnode) : Prop := forall n, In n nodes -> ntype n <> "Softmax"%string.
Definition no_permute (nodes : list rnode) : Prop :=
  exists t, In t ["Reshape"; "Concat"; "Unsqueeze"; "Gather"; "Shape"]%string /\ forall n, In n nodes -> ntype n <> t.

(** A graph and a run of it ([final]: the values of all names afterwards). *)
Record plain (dbg : attr -> string) (s : store) (inputs : string -> option fdata) (nodes : list rnode) (final : string -> option fdata) : Prop := {
  p_ssa : ssa inputs nodes;
  p_names : NoDup (map nname nodes);
  p_apart : named_apart nodes;
  p_suffix : suffix_free nodes;
  p_store : store_ok s;
  p_registered : registered s inputs nodes;
  p_single : single_outputs (folded_ops ++ shape_ops) nodes;
  p_typed : exactly_typed (folded_ops ++ ["Gather"%string]) nodes final;
  p_known : shapes_known nodes (st_get s) final;
  p_whole : whole_shapes nodes;
  p_forward : forward_steps (st_get s) nodes final;
  p_by_name : by_name nodes;
  p_neutral : neutral (st_get s) nodes final;
  p_dbg : dbg_tells dbg nodes;
  p_attention : no_attention nodes;
  p_permute : no_permute nodes
}.

(** The operators of Passes_Model.idempotent_ops take one operand, give one
    result and do nothing to their own results. *)
Definition idempotent_mean (sem : string -> list (string * attr) -> nat -> list (option fdata) -> option (list fdata)) : Prop :=
  (forall t at1 at2 v w, In t idempotent_ops -> sem t at1 1%nat [Some v] = Some [w] -> sem t at2 1%nat [Some w] = Some [w]) /\
  (forall t at1 k v ws, In t idempotent_ops -> sem t at1 k v = Some ws -> exists x w, v = [Some x] /\ ws = [w] /\ k = 1%nat).
