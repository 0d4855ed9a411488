(** C30, C32, C33, C34: property theorems only. *)
From Verif Require Import IR_Model IR_Spec IR_Proofs Passes_Model Passes_Spec Passes_Proofs Tensor_Spec.
From Coq Require Import Reals.
From Flocq Require Import Core.

(* ------------------------------------------------------------------ *)
(** * C30 *)

(** The value of every graph output is preserved, for every semantics of the
    operators, all constants and all inputs. *)
Theorem C30_dead_nodes_preserve : forall V
  (sem : string -> list (string * attr) -> nat -> list (option V) -> option (list V))
  (static : N -> option V) (inputs : string -> option V) nodes outputs,
  preserves (run sem static inputs nodes)
            (run sem static inputs (eliminate_dead_nodes nodes outputs)) (map aname outputs).
Proof. exact (@dead_preserves). Qed.
Print Assumptions C30_dead_nodes_preserve.

(** Exactly the nodes that some graph output depends on are kept. *)
Theorem C30_dead_nodes_exact : forall nodes outputs,
  ordered nodes -> forall n, In n (eliminate_dead_nodes nodes outputs) <-> needed nodes outputs n.
Proof. exact dead_nodes_exact. Qed.
Print Assumptions C30_dead_nodes_exact.

(** They are kept in their original order. *)
Theorem C30_dead_nodes_order : forall nodes outputs,
  exists f, eliminate_dead_nodes nodes outputs = filter f nodes.
Proof. exact dead_order. Qed.
Print Assumptions C30_dead_nodes_order.

Theorem C30_dead_nodes_idempotent : forall nodes outputs,
  eliminate_dead_nodes (eliminate_dead_nodes nodes outputs) outputs = eliminate_dead_nodes nodes outputs.
Proof. exact dead_idempotent. Qed.
Print Assumptions C30_dead_nodes_idempotent.

Open Scope string_scope.
Open Scope list_scope.
Definition t1 : argty := TensorT (mkTT I64 1%N None).
Definition dyn x := mkArg x t1 VDynamic.
Definition nd ty nm ins outs := mkNode ty nm (map dyn ins) (map dyn outs) [].

(** A chain of two dead nodes next to a live one. *)
Definition dead_example : list rnode :=
  [ nd "Relu" "relu1" ["x"] ["relu1_out1"];
    nd "Abs" "abs1" ["relu1_out1"] ["abs1_out1"];
    nd "Neg" "neg1" ["abs1_out1"] ["neg1_out1"];
    nd "Sign" "sign1" ["relu1_out1"] ["sign1_out1"] ].
Example C30_ordered : ordered dead_example.
Proof.
  cbn. repeat split; intros i m Hi Hm Ho;
  repeat match goal with H : _ \/ _ |- _ => destruct H | H : False |- _ => destruct H end; subst; cbn in *;
  repeat match goal with H : _ \/ _ |- _ => destruct H | H : False |- _ => destruct H end; discriminate.
Qed.
Example C30_example : map nname (eliminate_dead_nodes dead_example [dyn "sign1_out1"]) = ["relu1"; "sign1"].
Proof. reflexivity. Qed.

(* ------------------------------------------------------------------ *)
(** * C32 *)

Theorem C32_idempotent_preserve : forall V
  (sem : string -> list (string * attr) -> nat -> list (option V) -> option (list V))
  (static : N -> option V) (inputs : string -> option V) nodes outs,
  (* the six operators are unary and idempotent *)
  (forall t at1 at2 v w, In t ["Relu"; "Ceil"; "Floor"; "Round"; "Sign"; "Abs"] ->
     sem t at1 1 [Some v] = Some [w] -> sem t at2 1 [Some w] = Some [w]) ->
  (forall t at1 k v ws, In t ["Relu"; "Ceil"; "Floor"; "Round"; "Sign"; "Abs"] ->
     sem t at1 k v = Some ws -> exists x w, v = [Some x] /\ ws = [w] /\ k = 1) ->
  named_apart nodes -> ssa inputs nodes ->
  preserves (run sem static inputs nodes)
            (run sem static inputs (eliminate_idempotent_ops nodes)) outs.
Proof. exact (@idempotent_preserves). Qed.
Print Assumptions C32_idempotent_preserve.

(** The operators themselves, on the reals. *)
Open Scope R_scope.
Definition real_op (t : string) : R -> R :=
  if String.eqb t "Relu" then Rmax 0
  else if String.eqb t "Ceil" then fun x => IZR (Zceil x)
  else if String.eqb t "Floor" then fun x => IZR (Zfloor x)
  else if String.eqb t "Round" then fun x => IZR (ZnearestE x)
  else if String.eqb t "Sign" then fun x => match Rcompare x 0 with Lt => -1 | Eq => 0 | Gt => 1 end
  else Rabs.
Theorem C32_operators_idempotent : forall t x,
  In t ["Relu"; "Ceil"; "Floor"; "Round"; "Sign"; "Abs"] -> real_op t (real_op t x) = real_op t x.
Proof.
  intros t x Ht. cbn in Ht.
  destruct Ht as [<-|[<-|[<-|[<-|[<-|[<-|[]]]]]]]; unfold real_op; cbn [String.eqb Ascii.eqb Bool.eqb].
  - apply Rmax_right. apply Rmax_l.
  - rewrite Zceil_IZR. reflexivity.
  - rewrite Zfloor_IZR. reflexivity.
  - rewrite (@Zrnd_IZR ZnearestE _). reflexivity.
  - destruct (Rcompare_spec x 0).
    + rewrite Rcompare_Lt; [reflexivity|]. apply (IZR_lt (-1) 0). reflexivity.
    + rewrite Rcompare_Eq; reflexivity.
    + rewrite Rcompare_Gt; [reflexivity|]. apply (IZR_lt 0 1). reflexivity.
  - apply Rabs_Rabsolu.
Qed.
Print Assumptions C32_operators_idempotent.
Close Scope R_scope.

(** A triple chain with fan-out; the operator semantics is the one on
    integers. *)
Definition map1 (f : Z -> Z) (vs : list (option (tensor Z))) : option (list (tensor Z)) :=
  match vs with [Some x] => Some [mkT (tshape x) (map f (tdata x))] | _ => None end.
Definition map2 (f : Z -> Z -> Z) (vs : list (option (tensor Z))) : option (list (tensor Z)) :=
  match vs with [Some x; Some y] => option_map (fun r => [r]) (elementwise f x y) | _ => None end.
Definition zsem (t : string) (_ : list (string * attr)) (k : nat) (vs : list (option (tensor Z)))
  : option (list (tensor Z)) :=
  if Nat.eqb k 1 then
    if String.eqb t "Relu" then map1 (Z.max 0) vs
    else if String.eqb t "Abs" then map1 Z.abs vs
    else if String.eqb t "Sign" then map1 Z.sgn vs
    else if (String.eqb t "Ceil" || String.eqb t "Floor" || String.eqb t "Round" || String.eqb t "Constant")%bool
         then map1 (fun z => z) vs
    else if String.eqb t "Neg" then map1 Z.opp vs
    else if String.eqb t "Add" then map2 Z.add vs
    else if String.eqb t "Sub" then map2 Z.sub vs
    else if String.eqb t "Mul" then map2 Z.mul vs
    else if String.eqb t "Div" then map2 Z.quot vs
    else if String.eqb t "Pow" then map2 Z.pow vs
    else None
  else None.

Definition idem_example : list rnode :=
  [ nd "Relu" "relu1" ["x"] ["relu1_out1"];
    nd "Relu" "relu2" ["relu1_out1"] ["relu2_out1"];
    nd "Relu" "relu3" ["relu2_out1"] ["relu3_out1"];
    nd "Add" "add1" ["relu2_out1"; "relu3_out1"] ["add1_out1"] ].
Example C32_example_result :
  map in_names (eliminate_idempotent_ops idem_example) =
    [["x"]; ["relu1_out1"]; ["relu1_out1"]; ["relu1_out1"; "relu2_out1"]].
Proof. reflexivity. Qed.

Ltac in_cases :=
  repeat match goal with H : _ \/ _ |- _ => destruct H | H : False |- _ => destruct H end; subst; cbn in *.
Ltac wn := intros n Hn; cbn in Hn; in_cases; split; intros o Ho; cbn in Ho; in_cases; discriminate.
Ltac nodup := repeat constructor; cbn; intros Hnd; in_cases; discriminate.
Definition env1 (v : tensor Z) : string -> option (tensor Z) := fun n => if String.eqb n "x" then Some v else None.
Ltac ssa_tac := split; [nodup|intros y Hy; cbn in Hy; in_cases; reflexivity].

Example C32_hypotheses : forall v,
  (forall t at1 at2 v w, In t ["Relu"; "Ceil"; "Floor"; "Round"; "Sign"; "Abs"] ->
     zsem t at1 1 [Some v] = Some [w] -> zsem t at2 1 [Some w] = Some [w]) /\
  (forall t at1 k v ws, In t ["Relu"; "Ceil"; "Floor"; "Round"; "Sign"; "Abs"] ->
     zsem t at1 k v = Some ws -> exists x w, v = [Some x] /\ ws = [w] /\ k = 1) /\
  well_named idem_example /\ ssa (env1 v) idem_example /\
  exists e, run zsem (fun _ => None) (env1 (mkT [3%N] [-2; 0; 7]%Z)) idem_example = Some e /\
            e "add1_out1" = Some (mkT [3%N] [0; 0; 14]%Z).
Proof.
  intros v. split; [|split; [|split; [|split]]].
  - intros t a1 a2 u w Ht. cbn in Ht. in_cases; unfold zsem; cbn; intros H; inversion H; subst; cbn; f_equal; f_equal;
      f_equal; rewrite map_map; apply map_ext; intros z; lia.
  - intros t a1 k vs ws Ht H. cbn in Ht. unfold zsem in H. destruct (Nat.eqb_spec k 1); [|discriminate].
    in_cases; destruct vs as [|[?|] [|? ?]]; cbn in H; try discriminate; inversion H; eexists; eexists; auto.
  - wn.
  - ssa_tac.
  - eexists. split; vm_compute; reflexivity.
Qed.

(* ------------------------------------------------------------------ *)
(** * C33 *)

(** Partial: on tensors, for scalar operations with the neutral-element laws,
    provided the constant does not enlarge the other operand by broadcasting
    and the kept operand has a name.  The first proviso is necessary, see
    below. *)
Theorem C33_identity_partial : forall (A F : Type)
  (sem : string -> list (string * attr) -> nat -> list (option (tensor A)) -> option (list (tensor A)))
  (static : N -> option (tensor A)) (toF : A -> F) (eq0 eq1 : F -> bool)
  (add sub mul div pow : A -> A -> A) (arg_f64 : arg -> option (list F))
  nodes (inputs final : string -> option (tensor A)),
  (* scalars that compare equal to 0 and to 1 are neutral *)
  (forall a v, eq0 (toF a) = true -> add v a = v /\ add a v = v /\ sub v a = v) ->
  (forall a v, eq1 (toF a) = true -> mul v a = v /\ mul a v = v /\ div v a = v /\ pow v a = v) ->
  (* the five operators are element-wise with broadcasting *)
  (forall t op, In (t, op) [("Add", add); ("Sub", sub); ("Mul", mul); ("Div", div); ("Pow", pow)] ->
     forall at_ x y, sem t at_ 1 [Some x; Some y] = option_map (fun r => [r]) (elementwise op x y)) ->
  (* all tensors have as many elements as their shape says *)
  (forall t at_ k vs outs, sem t at_ k vs = Some outs -> Forall twf outs) ->
  (forall x v, inputs x = Some v -> twf v) ->
  (forall i v, static i = Some v -> twf v) ->
  (* an argument with a recorded value is a constant, and the record is the run-time value *)
  (forall a fs, arg_f64 a = Some fs -> is_static a = true \/ is_constant a = true) ->
  (forall p s e n a fs v, nodes = p ++ s -> run sem static inputs p = Some e -> In n p -> In a (ninputs n) ->
     arg_f64 a = Some fs -> arg_eval static e a = Some (Some v) -> fs = map toF (tdata v)) ->
  (* the kept operand has a name, and the node's result has its shape *)
  (forall n x y, In n nodes -> identity_entry arg_f64 eq0 eq1 n = Some (x, y) -> y <> EmptyString) ->
  (forall p s e n x y vx vy, nodes = p ++ s -> run sem static inputs p = Some e -> In n p ->
     identity_entry arg_f64 eq0 eq1 n = Some (x, y) -> e x = Some vx -> e y = Some vy ->
     tshape vx = tshape vy) ->
  well_named nodes -> ssa inputs nodes ->
  run sem static inputs nodes = Some final ->
  run sem static inputs (eliminate_identity_elements arg_f64 eq0 eq1 nodes) = Some final.
Proof. exact (@identity_tensor_run). Qed.
Print Assumptions C33_identity_partial.

(** Finding: the shape of the constant is not looked at.  Adding a vector of
    three zeros to a one-element vector gives three elements; after the pass
    there is only one. *)
Definition z_f64 (stat : N -> option (tensor Z)) (a : arg) : option (list Z) :=
  match asrc a with VStatic i => option_map tdata (stat i) | VConstant => Some [0; 0; 0]%Z | _ => None end.
Definition stat3 : N -> option (tensor Z) := fun _ => Some (mkT [3%N] [0; 0; 0]%Z).
Definition cst_node := mkNode "Constant" "constant1" [mkArg "" t1 (VStatic 0)] [mkArg "constant1_out1" t1 VConstant] [].
Definition widen_example : list rnode :=
  [ cst_node;
    mkNode "Add" "add1" [dyn "x"; mkArg "constant1_out1" t1 VConstant] [dyn "add1_out1"] [];
    nd "Neg" "neg1" ["add1_out1"] ["neg1_out1"] ].

Theorem C33_broadcast_lost_refuted :
  exists e1 e2,
    run zsem stat3 (env1 (mkT [1%N] [5]%Z)) widen_example = Some e1 /\
    run zsem stat3 (env1 (mkT [1%N] [5]%Z))
      (eliminate_identity_elements (z_f64 stat3) (Z.eqb 0) (Z.eqb 1) widen_example) = Some e2 /\
    e1 "neg1_out1" = Some (mkT [3%N] [-5; -5; -5]%Z) /\
    e2 "neg1_out1" = Some (mkT [1%N] [-5]%Z).
Proof. eexists. eexists. repeat split; vm_compute; reflexivity. Qed.
Print Assumptions C33_broadcast_lost_refuted.

(** The hypotheses of the partial theorem are met when the other operand has
    three elements already. *)
Definition v3 := mkT [3%N] [5; 6; 7]%Z.
Example C33_hypotheses_met :
  (forall p s e n x y vx vy, widen_example = p ++ s -> run zsem stat3 (env1 v3) p = Some e -> In n p ->
     identity_entry (z_f64 stat3) (Z.eqb 0) (Z.eqb 1) n = Some (x, y) -> e x = Some vx -> e y = Some vy ->
     tshape vx = tshape vy) /\
  (forall p s e n a fs v, widen_example = p ++ s -> run zsem stat3 (env1 v3) p = Some e -> In n p -> In a (ninputs n) ->
     z_f64 stat3 a = Some fs -> arg_eval stat3 e a = Some (Some v) -> fs = map (fun z => z) (tdata v)) /\
  (forall a v, Z.eqb 0 a = true -> v + a = v /\ a + v = v /\ v - a = v)%Z /\
  (forall a v, Z.eqb 1 a = true -> v * a = v /\ a * v = v /\ Z.quot v a = v /\ Z.pow v a = v)%Z /\
  well_named widen_example /\ ssa (env1 v3) widen_example /\
  map in_names (eliminate_identity_elements (z_f64 stat3) (Z.eqb 0) (Z.eqb 1) widen_example) =
    [[""]; ["x"; "constant1_out1"]; ["x"]] /\
  exists e, run zsem stat3 (env1 v3) widen_example = Some e /\ e "neg1_out1" = Some (mkT [3%N] [-5; -6; -7]%Z).
Proof.
  split; [|split; [|split; [|split; [|split; [|split; [|split]]]]]].
  - intros p s e n x y vx vy Hp Hr Hn Hi Hx Hy.
    destruct p as [|n1 [|n2 [|n3 [|? ?]]]]; cbn in Hp; inversion Hp; subst; cbn in Hn; in_cases; try discriminate;
      inversion Hi; subst; vm_compute in Hr; inversion Hr; subst; vm_compute in Hx, Hy; congruence.
  - intros p s e n a fs v Hp Hr Hn Ha Hf Hv.
    destruct p as [|n1 [|n2 [|n3 [|? ?]]]]; cbn in Hp; inversion Hp; subst; cbn in Hn; in_cases; in_cases; try discriminate;
      vm_compute in Hr; inversion Hr; subst; vm_compute in Hf, Hv; try discriminate; inversion Hv; inversion Hf; subst; reflexivity.
  - intros a v H. apply Z.eqb_eq in H. subst. lia.
  - intros a v H. apply Z.eqb_eq in H. subst. repeat split; try lia; apply Z.quot_1_r.
  - intros n Hn; cbn in Hn; in_cases; split; intros o Ho; cbn in Ho; in_cases; discriminate || reflexivity.
  - ssa_tac.
  - reflexivity.
  - eexists. split; vm_compute; reflexivity.
Qed.

(* ------------------------------------------------------------------ *)
(** * C34 *)

(** For every semantics in which an operator is a function of its attributes
    and inputs.  [dbg] is the printed form of attributes; it must tell
    different attributes apart. *)
Theorem C34_cse_preserve_partial : forall V (dbg : attr -> string)
  (sem : string -> list (string * attr) -> nat -> list (option V) -> option (list V))
  (static : N -> option V) (inputs : string -> option V) nodes outs,
  dbg_tells dbg nodes ->
  NoDup (map nname nodes) -> named_apart nodes -> ssa inputs nodes ->
  preserves (run sem static inputs nodes)
            (run sem static inputs (eliminate_redundant_nodes dbg nodes)) outs.
Proof. exact (@cse_preserves). Qed.
Print Assumptions C34_cse_preserve_partial.

(** An input is redirected only from one node to another one with the same
    operator, attributes and inputs, none of them an embedded constant. *)
Theorem C34_merged_only_if_equal : forall dbg nodes,
  dbg_tells dbg nodes ->
  NoDup (map nname nodes) ->
  forall k n' i a a',
    nth_error (eliminate_redundant_nodes dbg nodes) k = Some n' ->
    exists n, nth_error nodes k = Some n /\ ntype n' = ntype n /\ nattrs n' = nattrs n /\ noutputs n' = noutputs n /\
      (nth_error (ninputs n') i = Some a' -> nth_error (ninputs n) i = Some a -> aname a' <> aname a ->
       exists orig dup j o d, In orig nodes /\ In dup nodes /\ orig <> dup /\
         ntype orig = ntype dup /\ nattrs orig = nattrs dup /\ map aname (ninputs orig) = map aname (ninputs dup) /\
         (forall b, In b (ninputs orig ++ ninputs dup) -> asrc b = VDynamic \/ asrc b = VOptional) /\
         nth_error (noutputs orig) j = Some o /\ nth_error (noutputs dup) j = Some d /\
         aname a = aname d /\ aname a' = aname o).
Proof. exact cse_only_merges. Qed.
Print Assumptions C34_merged_only_if_equal.

(** Finding: operators that draw random numbers are merged too, although two
    such nodes do not compute the same.  A run of the graph draws a fresh
    value for each node, so the semantics has the drawn stream in it: here the
    value of a node is determined by its name. *)
Fixpoint run_random (draw : string -> Z) (e : string -> option Z) (nodes : list rnode) : option (string -> option Z) :=
  match nodes with
  | [] => Some e
  | n :: r =>
      let v :=
        if String.eqb (ntype n) "RandomNormal" then Some (draw (nname n))
        else if String.eqb (ntype n) "Sub" then
          match ninputs n with
          | [a; b] => match e (aname a), e (aname b) with Some x, Some y => Some (x - y)%Z | _, _ => None end
          | _ => None
          end
        else None in
      match v, noutputs n with
      | Some v, [o] => run_random draw (bind1 e (aname o) v) r
      | _, _ => None
      end
  end.
Definition random_example : list rnode :=
  [ nd "RandomNormal" "randomnormal1" [] ["randomnormal1_out1"];
    nd "RandomNormal" "randomnormal2" [] ["randomnormal2_out1"];
    nd "Sub" "sub1" ["randomnormal1_out1"; "randomnormal2_out1"] ["sub1_out1"] ].

Theorem C34_random_nodes_merged_refuted : forall dbg,
  exists draw e1 e2,
    run_random draw (fun _ => None) random_example = Some e1 /\
    run_random draw (fun _ => None) (eliminate_redundant_nodes dbg random_example) = Some e2 /\
    e1 "sub1_out1" <> e2 "sub1_out1" /\
    (forall draw' e, run_random draw' (fun _ => None) (eliminate_redundant_nodes dbg random_example) = Some e ->
       e "sub1_out1" = Some 0%Z).
Proof.
  intros dbg. exists (fun s => if String.eqb s "randomnormal1" then 1 else 0)%Z.
  eexists. eexists. split; [reflexivity|]. split; [reflexivity|]. split.
  - vm_compute. discriminate.
  - intros draw' e H. cbn in H. inversion H; subst. unfold bind1. cbn. f_equal. lia.
Qed.
Print Assumptions C34_random_nodes_merged_refuted.

Definition cse_example : list rnode :=
  [ nd "Relu" "relu1" ["x"] ["relu1_out1"];
    nd "Relu" "relu2" ["x"] ["relu2_out1"];
    mkNode "LeakyRelu" "leakyrelu1" [dyn "relu1_out1"] [dyn "leakyrelu1_out1"] [("alpha", AFloat 7)];
    mkNode "LeakyRelu" "leakyrelu2" [dyn "relu1_out1"] [dyn "leakyrelu2_out1"] [("alpha", AFloat 8)];
    mkNode "LeakyRelu" "leakyrelu3" [dyn "relu1_out1"] [dyn "leakyrelu3_out1"] [("alpha", AFloat 8)];
    nd "Add" "add1" ["leakyrelu1_out1"; "leakyrelu3_out1"; "relu2_out1"] ["add1_out1"] ].
Definition dbg_float (a : attr) : string := match a with AFloat b => dec b | _ => "" end.
Example C34_hypotheses_met : forall v,
  dbg_tells dbg_float cse_example /\
  NoDup (map nname cse_example) /\ well_named cse_example /\ ssa (env1 v) cse_example /\
  map in_names (eliminate_redundant_nodes dbg_float cse_example) =
    [["x"]; ["x"]; ["relu1_out1"]; ["relu1_out1"]; ["relu1_out1"];
     ["leakyrelu1_out1"; "leakyrelu2_out1"; "relu1_out1"]].
Proof.
  intros v. split; [|split; [nodup|split; [wn|split; [ssa_tac|reflexivity]]]].
  intros n m Hn Hm a b Ha Hb _ _ H. cbn in Hn, Hm. in_cases; in_cases; try reflexivity; vm_compute in H; discriminate H.
Qed.
