(** What is assumed of a graph in the theorems about coalescing attention. *)
From Flocq Require Import BinarySingleNaN.
From Verif Require Export Attention_Spec Attention_Model.
Local Open Scope N_scope.

Section Cond.
  Variable scalar : arg -> reading.
  Variable static : N -> option rt.
  Variables (nodes nodes' : list rnode) (ef : string -> option rt).
  Notation value i v := (arg_eval static ef i = Some (Some v)).

  (** Types have the rank of the values. *)
  Definition ranks_right : Prop := forall n i t v,
    In n nodes -> In i (ninputs n) -> aty i = TensorT t -> value i v -> N.of_nat (length (tshape v)) = tt_rank t.

  (** MatMul on tensors of rank 4 does not broadcast the first two dimensions. *)
  Definition no_broadcast : Prop := forall n i j x y b h m k,
    In n nodes -> ntype n = "MatMul"%string -> ninputs n = [i; j] -> value i x -> value j y ->
    tshape x = [b; h; m; k] -> exists c, tshape y = [b; h; k; c].

  (** A mask broadcasts to the scores, and has rank 2, rank 4 or rank 3 with a
      leading 1. *)
  Definition mask_fits (s t : list N) : Prop :=
    bshape s t = Some s /\ (length t = 2%nat \/ length t = 4%nat \/ exists m n, t = [1; m; n]).
  Definition masks_fit : Prop := forall add sm n o up mask x v,
    In add nodes -> ntype add = "Add"%string -> In sm nodes -> ntype sm = "Softmax"%string ->
    In o (noutputs add) -> reads sm (aname o) ->
    ninputs add = [up; mask] \/ ninputs add = [mask; up] ->
    In n nodes -> In (ntype n) ["MatMul"; "Mul"; "Div"]%string -> In (aname up) (map aname (noutputs n)) ->
    value up x -> value mask v -> mask_fits (tshape x) (tshape v).

  (** A constant of a Mul or Div node that is read as a number is that number. *)
  Definition numbers_read : Prop := forall n i c,
    In n nodes -> In (ntype n) ["Mul"; "Div"]%string -> In i (ninputs n) -> scalar i = Number c ->
    is_finite c = true /\ exists s, Forall (eq 1) s /\ (length s <= 4)%nat /\ value i (mkT s [B2R c]).

  (** The operands of a Mul node are both of a type that is read or both not. *)
  Definition same_kind : Prop := forall n a b c,
    In n nodes -> ntype n = "Mul"%string -> ninputs n = [a; b] -> scalar b = NotNumber -> scalar a = Number c -> False.

  (** [s], rounded to 32 bits, is [r]. *)
  Definition exact32 (s : f64) (r : R) : Prop := is_finite (as_f32 s) = true /\ B2R (as_f32 s) = r.

  Definition factors_exact : Prop := forall n i c,
    In n nodes -> ntype n = "Mul"%string -> In i (ninputs n) -> scalar i = Number c -> exact32 c (B2R c).
  Definition divisors_exact : Prop := forall n m i j c,
    In n nodes -> ntype n = "Div"%string -> ninputs n = [i; j] -> scalar j = Number c ->
    In m nodes -> ntype m = "MatMul"%string -> In (aname i) (map aname (noutputs m)) ->
    exact32 (div64 one64 c) (/ B2R c)%R.

  (** When both operands of a MatMul are multiplied by something of the same
      name, that is a constant, its square is exact, and the scores are not
      scaled again. *)
  Definition prescaled_right : Prop := forall qk qm km x y s s',
    In qk nodes -> ntype qk = "MatMul"%string -> ninputs qk = [x; y] ->
    In qm nodes -> ntype qm = "Mul"%string -> In (aname x) (map aname (noutputs qm)) -> In s (ninputs qm) ->
    In km nodes -> ntype km = "Mul"%string -> In (aname y) (map aname (noutputs km)) -> In s' (ninputs km) ->
    aname s = aname s' -> ty_rank (aty s) <= 1 ->
    (exists c, scalar s = Number c /\ exact32 (mul64 c c) (B2R c * B2R c)%R) /\
    arg_eval static ef s = arg_eval static ef s' /\
    (forall n o, In n nodes -> In (ntype n) ["Mul"; "Div"]%string -> In o (noutputs qk) -> ~ reads n (aname o)).

  (** The new Attention nodes carry a scale. *)
  Definition scales_found : Prop := forall i a m,
    nth_error nodes' i = Some a -> ntype a = "Attention"%string -> nth_error nodes i = Some m -> ntype m = "MatMul"%string ->
    nattrs a <> [].

  (** The names the pass makes up are new. *)
  Definition new_name (n : rnode) : string := (nname n ++ "_k_corrected")%string.
  Definition names_new : Prop := NoDup (map nname nodes) /\ forall n, In n nodes -> ef (new_name n) = None.

  Record attention_graph : Prop := {
    ag_ranks : ranks_right;
    ag_batch : no_broadcast;
    ag_masks : masks_fit;
    ag_numbers : numbers_read;
    ag_kind : same_kind;
    ag_factors : factors_exact;
    ag_divisors : divisors_exact;
    ag_prescaled : prescaled_right;
    ag_scales : scales_found;
    ag_names : names_new
  }.
End Cond.
