(** Operators on the lines of a tensor compute what ONNX prescribes (C61). *)
From Coq Require Import Lia Lra ZifyBool ZifyNat ZifyN.
From Verif Require Import ShapeOps_Spec Lines_Proofs Lines_Nodes.
Import Lines_Spec Tensor_Spec.
Local Open Scope N_scope.

(** ArgMax and ArgMin, for every axis, kept or dropped, and every form of the
    result: the first greatest (or least) element of each line.  Missing: elements
    without a total order (NaN), axes of size zero, variables that have the name of
    the helper (below). *)
Theorem C61_arg_partial : forall (T : Type) (le : T -> T -> bool),
  (forall a b, le a b = true \/ le b a = true) -> (forall a b c, le a b = true -> le b c = true -> le a c = true) ->
  forall (zero one : T) (add : T -> T -> T) (sm lsm : list T -> list T)
    (mx : bool) (n : rnode) (i o : arg) (x : tensor T) (e : lenv T) (ty : argty),
  ninputs n = [i] -> noutputs n = [o] -> infer_arg n = IOk ty -> chosen ty (aty o) ->
  lholds e i x -> axis_ok (axis_or n 0) x -> not_empty (axis_or n 0) x ->
  exists c e', gen_arg mx n = Some c /\ lexec le zero one add sm lsm e (aname o) c = Some e' /\
    (exists z v, arg_result (if mx then le else flipped le) (axis_or n 0) (keeps n) x z /\ e' (aname o) = Some v /\ index_form (aty o) z v) /\
    forall y, y <> aname o -> y <> (if mx then "argmax_result" else "argmin_result")%string -> e' y = e y.
Proof. intros T le Ht Htr zero one add sm lsm mx n i o x e ty. exact (arg_ok le zero one add sm lsm Ht Htr mx n i o x e ty). Qed.
Print Assumptions C61_arg_partial.

(** A request for the last of several greatest elements is refused. *)
Theorem C61_last_index : forall (n : rnode) (k : Z) (ty : argty),
  get_attr n "select_last_index" = Some (AInt k) -> k <> 0%Z -> infer_arg n <> IOk ty.
Proof.
  intros n k ty H Hk E. unfold infer_arg, arg_config in E. destruct (first_input n) as [i| |]; cbn [ibind] in E; try discriminate.
  destruct (aty i); try discriminate. unfold attr_i64_or in E. rewrite H in E. cbn [attr_i64 ibind] in E.
  replace (Z.eqb k 0) with false in E by lia.
  destruct (get_attr n "axis") as [[]|]; cbn [attr_i64 ibind iexpect] in E; try discriminate;
  destruct (get_attr n "keepdims") as [[]|]; cbn [attr_i64 ibind iexpect] in E; try discriminate;
  destruct (_ && _)%bool in E; cbn [negb iexpect ibind] in E; discriminate.
Qed.
Print Assumptions C61_last_index.

(** Hardmax: one at the first greatest element of each line, zero elsewhere.
    Missing: versions before 13 with more than one element after the axis (below),
    NaN, axes of size zero. *)
Theorem C61_hardmax_partial : forall (T : Type) (le : T -> T -> bool),
  (forall a b, le a b = true \/ le b a = true) -> (forall a b c, le a b = true -> le b c = true -> le a c = true) ->
  forall (zero one : T) (add : T -> T -> T) (sm lsm : list T -> list T), add zero one = one ->
  forall (n : rnode) (opset : N) (i o : arg) (x : tensor T) (e : lenv T),
  ninputs n = [i] -> noutputs n = [o] -> int_axis n -> lholds e i x ->
  axis_ok (softmax_axis n opset) x -> not_empty (softmax_axis n opset) x -> (opset < 13 -> ends_at (softmax_axis n opset) x) ->
  exists c z, gen_line LHardmax opset n = Some c /\ lexec le zero one add sm lsm e (aname o) c = Some (lset e (aname o) (LT z)) /\
    line_operator opset (hard_line le zero one) (softmax_axis n opset) x z.
Proof. intros T le Ht Htr zero one add sm lsm Hadd n opset i o x e Hi _. exact (hardmax_ok le zero one add sm lsm Ht Htr n opset i x e (aname o) Hadd Hi). Qed.
Print Assumptions C61_hardmax_partial.

(** Softmax and LogSoftmax of real numbers.  Missing: rounding, infinities, and
    versions before 13 with more than one element after the axis (below). *)
Theorem C61_softmax_partial : forall (le : real -> real -> bool) (zero one : real) (add : real -> real -> real)
    (n : rnode) (opset : N) (i o : arg) (x : tensor real) (e : lenv real),
  ninputs n = [i] -> noutputs n = [o] -> int_axis n -> lholds e i x ->
  axis_ok (softmax_axis n opset) x -> (opset < 13 -> ends_at (softmax_axis n opset) x) ->
  (exists c z, gen_line LSoftmax opset n = Some c /\ lexec le zero one add b_softmax b_log_softmax e (aname o) c = Some (lset e (aname o) (LT z)) /\
     line_operator opset soft_line (softmax_axis n opset) x z) /\
  (exists c z, gen_line LLogSoftmax opset n = Some c /\ lexec le zero one add b_softmax b_log_softmax e (aname o) c = Some (lset e (aname o) (LT z)) /\
     line_operator opset log_soft_line (softmax_axis n opset) x z).
Proof.
  intros le zero one add n opset i o x e Hi _ Hint Hx Ha Hend. split.
  - apply (softmax_ok le zero one add b_softmax b_log_softmax soft_line b_softmax LSoftmax n opset i x e (aname o) soft_ok); try assumption; [|left; auto]. intros l. unfold b_softmax. rewrite !map_length. reflexivity.
  - apply (softmax_ok le zero one add b_softmax b_log_softmax log_soft_line b_log_softmax LLogSoftmax n opset i x e (aname o) log_soft_ok); try assumption; [|right; auto]. intros l. unfold b_log_softmax. rewrite !map_length. reflexivity.
Qed.
Print Assumptions C61_softmax_partial.

(** ** Cases that meet the hypotheses *)
Definition larg (x : string) (d : dtype) (r : N) : arg := mkArg x (TensorT (mkTT d r None)) VDynamic.
Definition lnode (ty : string) (r : N) (o : arg) (attrs : list (string * attr)) : rnode := mkNode ty "n" [larg "x" F32 r] [o] attrs.
Definition lenv1 {T} (x : tensor T) : lenv T := fun k => if String.eqb k "x" then Some (LT x) else None.
Definition zle (a b : Z) : bool := (a <=? b)%Z.
Definition zexec := lexec zle 0%Z 1%Z Z.add (fun l => l) (fun l => l).
Definition block : tensor Z := mkT [2; 3; 2] [5; 1; 7; 1; 7; 0; 2; 2; 2; 9; 1; 9]%Z.

(** ArgMax along the middle axis, given from the end and dropped; ties take the first. *)
Definition am_node : rnode := lnode "ArgMax" 3 (larg "o" I64 2) [("axis"%string, AInt (-2)); ("keepdims"%string, AInt 0)].
Example C61_argmax_case :
  infer_arg am_node = IOk (TensorT (mkTT I64 2 None)) /\ lholds (lenv1 block) (larg "x" F32 3) block /\
  axis_ok (axis_or am_node 0) block /\ not_empty (axis_or am_node 0) block /\
  exists c e', gen_arg true am_node = Some c /\ zexec (lenv1 block) "o" c = Some e' /\ e' "o"%string = Some (LI (mkT [2; 2] [1; 0; 0; 1]%Z)).
Proof.
  split; [reflexivity|]. split; [split; [reflexivity|]; eexists; repeat split|]. split; [unfold axis_ok; cbn; lia|]. split.
  - intros d H. change (Some 3 = Some d) in H. injection H as <-. lia.
  - eexists _, _. split; [reflexivity|]. split; [vm_compute; reflexivity|]. vm_compute. reflexivity.
Qed.
(** ArgMin of a vector into a native integer. *)
Definition an_node : rnode := lnode "ArgMin" 1 (mkArg "o" (ScalarNative I64) VDynamic) [("keepdims"%string, AInt 0)].
Example C61_argmin_case :
  infer_arg an_node = IOk (ScalarTensor I64) /\ chosen (ScalarTensor I64) (ScalarNative I64) /\
  exists c e', gen_arg false an_node = Some c /\ zexec (lenv1 (mkT [4] [3; 2; 8; 2]%Z)) "o" c = Some e' /\ e' "o"%string = Some (LNative 1%Z).
Proof.
  split; [reflexivity|]. split; [right; eauto|]. eexists _, _. split; [reflexivity|]. split; [vm_compute; reflexivity|]. vm_compute. reflexivity.
Qed.
(** Hardmax along the middle axis, and along the last one in version 11. *)
Definition hm_node (attrs : list (string * attr)) : rnode := lnode "Hardmax" 3 (larg "o" F32 3) attrs.
Definition hm_axis : list (string * attr) := [("axis"%string, AInt 1)].
Definition hm_last : list (string * attr) := [("axis"%string, AInt (-1))].
Example C61_hardmax_case :
  int_axis (hm_node hm_axis) /\ axis_ok (softmax_axis (hm_node hm_axis) 13) block /\ ends_at (softmax_axis (hm_node hm_last) 11) block /\
  (exists c e', gen_line LHardmax 13 (hm_node hm_axis) = Some c /\ zexec (lenv1 block) "o" c = Some e' /\
     e' "o"%string = Some (LT (mkT [2; 3; 2] [0; 1; 1; 0; 0; 0; 1; 0; 0; 1; 0; 0]%Z))) /\
  (exists c e', gen_line LHardmax 11 (hm_node hm_last) = Some c /\ zexec (lenv1 block) "o" c = Some e' /\
     e' "o"%string = Some (LT (mkT [2; 3; 2] [1; 0; 1; 0; 1; 0; 1; 0; 0; 1; 0; 1]%Z))).
Proof.
  split; [intros a H; cbn in H; injection H as <-; eauto|]. split; [unfold axis_ok; cbn; lia|]. split; [reflexivity|].
  split; eexists _, _; (split; [reflexivity|]); (split; [vm_compute; reflexivity|]); vm_compute; reflexivity.
Qed.
(** The order of integers meets the hypotheses; so does that of real numbers. *)
Example C61_orders :
  ((forall a b, zle a b = true \/ zle b a = true) /\ (forall a b c, zle a b = true -> zle b c = true -> zle a c = true)) /\
  exists le : real -> real -> bool, (forall a b, le a b = true <-> (a <= b)%R) /\ (forall a b, le a b = true \/ le b a = true) /\
    (forall a b c, le a b = true -> le b c = true -> le a c = true).
Proof.
  split; [unfold zle; split; intros; lia|]. exists (fun a b => if Rle_dec a b then true else false). split; [|split].
  - intros a b. destruct (Rle_dec a b); split; intros; try discriminate; try reflexivity; try assumption. contradiction.
  - intros a b. destruct (Rle_dec a b), (Rle_dec b a); auto. lra.
  - intros a b c. destruct (Rle_dec a b), (Rle_dec b c), (Rle_dec a c); auto; try discriminate. lra.
Qed.
(** Softmax of a matrix along its last axis. *)
Example C61_softmax_case :
  exists c z, gen_line LSoftmax 13 (lnode "Softmax" 2 (larg "o" F32 2) []) = Some c /\
    lexec (fun _ _ => true) 0%R 1%R Rplus b_softmax b_log_softmax (lenv1 (mkT [1; 2] [0%R; ln 3])) "o" c = Some (lset (lenv1 (mkT [1; 2] [0%R; ln 3])) "o" (LT z)) /\
    z = mkT [1; 2] [(1 / 4)%R; (3 / 4)%R].
Proof.
  eexists _, _. split; [reflexivity|]. split; [reflexivity|].
  assert (E : b_softmax [0%R; ln 3] = [(1 / 4)%R; (3 / 4)%R]).
  { rewrite (soft_ok [0%R; ln 3]). unfold exps. cbn [map fold_right]. rewrite exp_0, exp_ln by lra. f_equal; [lra|]. f_equal. lra. }
  vm_compute nth_error. rewrite <- E. reflexivity.
Qed.

(** ** What does not hold *)
(** Versions before 13 take the dimensions from the axis on together; the code
    does not. *)
Definition square : tensor Z := mkT [2; 2] [1; 2; 3; 4]%Z.
Definition h12_node : rnode := lnode "Hardmax" 2 (larg "o" F32 2) [("axis"%string, AInt 0)].
Theorem C61_hardmax_rows_refuted :
  lholds (lenv1 square) (larg "x" F32 2) square /\ axis_ok (softmax_axis h12_node 12) square /\
  exists c z, gen_line LHardmax 12 h12_node = Some c /\ zexec (lenv1 square) "o" c = Some (lset (lenv1 square) "o" (LT z)) /\
    ~ line_operator 12 (hard_line zle 0%Z 1%Z) (softmax_axis h12_node 12) square z.
Proof.
  split; [split; [reflexivity|]; eexists; repeat split|]. split; [unfold axis_ok; cbn; lia|].
  eexists _, _. split; [reflexivity|]. split; [reflexivity|]. intros (_ & _ & _ & H). 
  destruct H as (_ & _ & P & d & Q & d' & Ex & LP & Ez & H). cbn in LP. destruct P as [|p0 [|]]; try discriminate LP. cbn in Ex. injection Ex as <- <- <-. cbn in Ez. injection Ez as <-.
  destruct (H [0] []) as (l & m & Hl & Hm & i & Hb & E); [repeat constructor|constructor|].
  vm_compute in Hl. injection Hl as <-. vm_compute in Hm. injection Hm as <-. cbn in E. destruct i as [|[|[|[|i]]]]; discriminate E.
Qed.
Print Assumptions C61_hardmax_rows_refuted.
Definition s12_node : rnode := lnode "Softmax" 2 (larg "o" F32 2) [("axis"%string, AInt 0)].
Definition nulls : tensor real := mkT [2; 2] [0; 0; 0; 0]%R.
Theorem C61_softmax_rows_refuted :
  lholds (lenv1 nulls) (larg "x" F32 2) nulls /\ axis_ok (softmax_axis s12_node 12) nulls /\
  exists c z, gen_line LSoftmax 12 s12_node = Some c /\
    lexec (fun _ _ => true) 0%R 1%R Rplus b_softmax b_log_softmax (lenv1 nulls) "o" c = Some (lset (lenv1 nulls) "o" (LT z)) /\
    ~ line_operator 12 soft_line (softmax_axis s12_node 12) nulls z.
Proof.
  split; [split; [reflexivity|]; eexists; repeat split|]. split; [unfold axis_ok; cbn; lia|].
  eexists _, _. split; [reflexivity|]. split; [reflexivity|]. intros (_ & _ & _ & H).
  destruct H as (_ & _ & P & d & Q & d' & Ex & LP & Ez & H). cbn in LP. destruct P as [|p0 [|]]; try discriminate LP. cbn in Ex. injection Ex as <- <- <-. cbn in Ez. injection Ez as <-.
  destruct (H [0] []) as (l & m & Hl & Hm & E); [repeat constructor|constructor|].
  assert (Es : b_softmax [0; 0]%R = [1 / 2; 1 / 2]%R).
  { rewrite (soft_ok [0; 0]%R). unfold exps. cbn [map fold_right]. rewrite exp_0. f_equal; [lra|]. f_equal. lra. }
  change (Some [0; 0; 0; 0]%R = Some l) in Hl. injection Hl as <-.
  change (match b_softmax [0; 0]%R with a :: b :: _ => Some [a; a; b; b] | _ => None end = Some m) in Hm. rewrite Es in Hm. injection Hm as <-.
  unfold soft_line, exps in E. cbn [map fold_right] in E. rewrite exp_0 in E. injection E as E _ _ _. lra.
Qed.
Print Assumptions C61_softmax_rows_refuted.
(** The helper variable of ArgMax takes the place of a tensor with that name. *)
Theorem C61_helper_refuted : exists (n : rnode) (e : lenv Z) (c : lcode) (e' : lenv Z) (t : tensor Z),
  e "argmax_result"%string = Some (LT t) /\ infer_arg n = IOk (TensorT (mkTT I64 2 None)) /\
  gen_arg true n = Some c /\ zexec e "o" c = Some e' /\ e' "argmax_result"%string <> Some (LT t).
Proof.
  exists am_node, (lset (lenv1 block) "argmax_result" (LT square)). eexists _, _, square. split; [reflexivity|]. split; [reflexivity|]. split; [reflexivity|].
  split; [vm_compute; reflexivity|]. vm_compute. discriminate.
Qed.
Print Assumptions C61_helper_refuted.
