(** C51 and C52: what graphs compute with shapes, and what the generated program
    computes with them. *)
From Coq Require Import Lia ZifyBool ZifyNat ZifyN.
From Verif Require Import ShapeRun_Spec ShapeRun_Model ShapeRun_Proofs.
Import Tensor_Spec BinOps_Spec ShapeRun_Spec.
Open Scope string_scope.
Open Scope list_scope.
Open Scope Z_scope.

Notation known value := (fun a => constant_of value a <> None).

(** ** C51: one node *)

(** Whatever the lengths, the bounds and the items: when the inputs of a node
    hold the values of an ONNX execution, the statement emitted for the node
    runs, and its result is a value of the recorded type standing for the ONNX
    result.  Missing: the nodes outside [covered], which fail below or are not
    modelled (results on the device, bounds known only at run time). *)
Theorem C51_statement_partial : forall value opset n ins out e o,
  noutputs n = [o] -> Forall2 (given value e) (ninputs n) ins -> covered (known value) n ins ->
  onnx_node n ins out -> infer_node value opset n = IOk (aty o) ->
  exists s v, gen_node value n = Some s /\ exec e s = Some v /\ stands_for (fst out) (aty o) v (snd out).
Proof. intros value opset n ins out e o Ho G C O T. exact (node_all value opset n e o Ho ins out G C O T). Qed.
Print Assumptions C51_statement_partial.

(** ** C52: a straight-line graph *)

(** The whole program: if the graph runs, its arguments have the types recorded
    for their names, and the variables of the program hold the graph's inputs
    (and the constants kept in variables, which no node overwrites), then code
    is emitted for every node, it runs to the end, and every value of the
    graph is held by the variable of its name. *)
Theorem C52_program_partial : forall value opset ty ns oe oe' e,
  runs (constant_of value) (fun n ins t => onnx_node n ins t /\ covered (known value) n ins) ns oe oe' ->
  (forall a, In a (flat_map ninputs ns) -> run_time a -> aty a = ty (aname a)) ->
  (forall o, In o (flat_map noutputs ns) -> aty o = ty (aname o)) ->
  (forall n o, In n ns -> noutputs n = [o] -> infer_node value opset n = IOk (aty o)) ->
  (forall a c, In a (flat_map ninputs ns) -> constant_of value a = Some c ->
      (twf (snd c) /\ Forall (in_dtype (fst c)) (tdata (snd c))) /\
      (run_time a -> oe (aname a) = Some c /\ ~ In (aname a) (map aname (flat_map noutputs ns)))) ->
  holds ty oe e ->
  exists body e', gen_body value ns = Some body /\ exec_body body e = Some e' /\ holds ty oe' e'.
Proof. intros value opset ty ns oe oe' e R Ti To Hi Hc Hh. exact (body_ok value opset ty ns oe oe' R Ti To Hi Hc e Hh). Qed.
Print Assumptions C52_program_partial.

(** *** A graph that meets the hypotheses: with [s] the shape of [x] and [i] an
    input, [p = concat(s[i..i+1], s[1..3]) * s]. *)
Definition var (x : string) (t : argty) : arg := mkArg x t VDynamic.
Definition const (x : string) : arg := mkArg x (TensorT (mkTT I64 1 (Some [Some 1%N]))) (VStatic 0).
Definition c_values (a : arg) : option cval :=
  if String.eqb (aname a) "zero" then Some (mkC [1%N] I64 (Some [0]))
  else if String.eqb (aname a) "one" then Some (mkC [1%N] I64 (Some [1]))
  else if String.eqb (aname a) "three" then Some (mkC [1%N] I64 (Some [3]))
  else None.
Definition f3 : argty := TensorT (mkTT F32 3 None).
Definition n_shape := mkNode "Shape" "n1" [var "x" f3] [var "s" (ShapeT 3)] [].
Definition n_gather := mkNode "Gather" "n2" [var "s" (ShapeT 3); var "i" (ScalarNative I64)] [var "g" (ScalarNative I64)] [("axis", AInt 0)].
Definition n_unsqueeze := mkNode "Unsqueeze" "n3" [var "g" (ScalarNative I64); const "zero"] [var "u" (ShapeT 1)] [].
Definition n_slice := mkNode "Slice" "n4" [var "s" (ShapeT 3); const "one"; const "three"] [var "t" (ShapeT 2)] [].
Definition n_concat := mkNode "Concat" "n5" [var "u" (ShapeT 1); var "t" (ShapeT 2)] [var "c" (ShapeT 3)] [("axis", AInt 0)].
Definition n_mul := mkNode "Mul" "n6" [var "c" (ShapeT 3); var "s" (ShapeT 3)] [var "p" (ShapeT 3)] [].
Definition example_graph : list rnode := [n_shape; n_gather; n_unsqueeze; n_slice; n_concat; n_mul].
Definition types (x : string) : argty :=
  if String.eqb x "x" then f3 else if String.eqb x "i" then ScalarNative I64 else if String.eqb x "g" then ScalarNative I64
  else if String.eqb x "u" then ShapeT 1 else if String.eqb x "t" then ShapeT 2 else ShapeT 3.
Definition x_value : tensor elt := mkT [2; 3; 4]%N (repeat (EF SpecFloat.S754_nan) 24).
Definition inputs : oenv := bind (bind (fun _ => None) "x" (F32, x_value)) "i" (I64, mkT [] [EI 1]).
Definition start : renv := bind (bind (fun _ => None) "x" (RTensor x_value)) "i" (RNative (EI 1)).

Ltac integer := do 2 eexists; split; [reflexivity|split; discriminate].
Ltac constant := intros [_ H]; discriminate H.

Example C52_runs : exists oe',
  runs (constant_of c_values) (fun n ins t => onnx_node n ins t /\ covered (known c_values) n ins) example_graph inputs oe' /\
  oe' "p" = Some (I64, vec [6; 9; 16]).
Proof.
  eexists. split.
  - eapply runs_cons; [reflexivity|reflexivity|split|].
    { eapply (on_shape _ F32 x_value 0 3); reflexivity. }
    { eapply (cov_shape _ _ _ _ _ _ 0 3); try reflexivity; cbn; try lia. repeat constructor; lia. }
    eapply runs_cons; [reflexivity|reflexivity|split|].
    { eapply (on_gather _ I64 (vec [2; 3; 4]) I64 (mkT [] [EI 1]) 0); try reflexivity. left; reflexivity. }
    { eapply (cov_gather_scalar _ _ _ _ 3%N); try reflexivity. left; reflexivity. }
    eapply runs_cons; [reflexivity|reflexivity|split|].
    { eapply (on_unsqueeze _ I64 (mkT [] [EI 3]) _ [0] [1%N]); try reflexivity.
      split; [reflexivity|]. split; [split; [intros a [<-|[]]; cbn; lia|repeat constructor; intros []]|]. split.
      - intros [|k] d _ H; cbn in H; [injection H as <-; reflexivity|destruct k; discriminate H].
      - apply del_drop; [exists 0; cbn; auto|]. constructor. }
    { eapply cov_unsqueeze; try reflexivity; [left; reflexivity|constructor; [discriminate|constructor]]. }
    eapply runs_cons; [reflexivity|reflexivity|split|].
    { eapply (on_slice _ I64 (vec [2; 3; 4]) _ [mkCut 0 1 3 1]); try reflexivity.
      - repeat constructor.
      - split; [intros a [<-|[]]; cbn; lia|repeat constructor; intros []].
      - intros c [<-|[]]. discriminate. }
    { eapply (cov_slice _ _ _ _ 3%N _ _ (mkCut 0 1 3 1)); try reflexivity; try (cbn; lia). repeat constructor; discriminate. }
    eapply runs_cons; [reflexivity|reflexivity|split|].
    { apply (on_concat _ I64 [vec [3]; vec [3; 4]] 0 (vec [3; 3; 4])); try reflexivity.
      exists [3%N]. split; [reflexivity|]. split; [|reflexivity]. split; [discriminate|]. split; [cbn; lia|]. split.
      - intros s [<-|[<-|[]]]; (split; [reflexivity|]); intros [|k] H; [elim H; reflexivity|destruct k; reflexivity|elim H; reflexivity|destruct k; reflexivity].
      - reflexivity. }
    { apply cov_concat; [reflexivity|]. repeat constructor; eexists; reflexivity. }
    eapply runs_cons; [reflexivity|reflexivity|split|].
    { eapply (on_binary _ OMul I64 (vec [3; 3; 4]) (vec [2; 3; 4])); reflexivity. }
    { eapply cov_binary; try reflexivity. split; reflexivity. }
    apply runs_nil.
  - reflexivity.
Qed.
Example C52_hypotheses :
  (forall a, In a (flat_map ninputs example_graph) -> run_time a -> aty a = types (aname a)) /\
  (forall o, In o (flat_map noutputs example_graph) -> aty o = types (aname o)) /\
  (forall n o, In n example_graph -> noutputs n = [o] -> infer_node c_values 13 n = IOk (aty o)) /\
  (forall a c, In a (flat_map ninputs example_graph) -> constant_of c_values a = Some c ->
      (twf (snd c) /\ Forall (in_dtype (fst c)) (tdata (snd c))) /\
      (run_time a -> inputs (aname a) = Some c /\ ~ In (aname a) (map aname (flat_map noutputs example_graph)))) /\
  holds types inputs start /\
  exists body e', gen_body c_values example_graph = Some body /\ exec_body body start = Some e' /\ e' "p" = Some (RShape [6; 9; 16]).
Proof.
  split; [|split; [|split; [|split; [|split]]]].
  - intros a H R. cbn in H. repeat destruct H as [<- | H]; try reflexivity; try contradiction.
  - intros a H. cbn in H. repeat destruct H as [<- | H]; try reflexivity; try contradiction.
  - intros n o H Ho. cbn in H. repeat destruct H as [<- | H]; try (injection Ho as <-; reflexivity); contradiction.
  - intros a c H Hc. cbn in H. repeat destruct H as [<- | H]; try contradiction; try discriminate Hc; injection Hc as <-.
    all: split; [split; [reflexivity|repeat constructor; integer]|intros []].
  - intros x t H. unfold inputs, start, bind in *. destruct (String.eqb_spec x "i") as [->|].
    + injection H as <-. eexists. split; [reflexivity|]. split; [reflexivity|]. split; [repeat constructor; integer|split; reflexivity].
    + destruct (String.eqb_spec x "x") as [->|]; [|discriminate H]. injection H as <-. eexists. split; [reflexivity|].
      split; [reflexivity|]. split; [|repeat split; discriminate]. apply Forall_forall. intros y Hy. apply repeat_spec in Hy. subst y. eexists. reflexivity.
  - eexists _, _. split; [reflexivity|]. split; [reflexivity|]. reflexivity.
Qed.

(** *** Cases of the other operators *)
Definition no_values (a : arg) : option cval := None.
Definition shape_var (k : N) : arg := var "x" (ShapeT k).
Lemma given_var value e x t d w v : value (var x t) = None -> e x = Some v -> stands_for d t v w -> given value e (var x t) (d, w).
Proof.
  intros N E S. split; [unfold constant_of; rewrite N; discriminate|]. split; [destruct S as (W & F & _); split; assumption|]. intros _. exists v. split; assumption.
Qed.
Lemma given_static value e a c : constant_of value a = Some c -> (twf (snd c) /\ Forall (in_dtype (fst c)) (tdata (snd c))) -> ~ run_time a -> given value e a c.
Proof. intros C W R. split; [intros c0 E; rewrite C in E; injection E as <-; reflexivity|]. split; [exact W|]. intros R'. contradiction. Qed.
Lemma stands_vec l : Forall (fun z => -9223372036854775808 <= z <= 9223372036854775807) l ->
  stands_for I64 (ShapeT (N.of_nat (length l))) (RShape l) (vec l).
Proof.
  intros F. split; [unfold twf, vec; cbn; rewrite map_length; lia|]. split; [|cbn; split; [reflexivity|left; split; reflexivity]].
  cbn. rewrite Forall_map. eapply Forall_impl; [|exact F]. cbn. intros z Hz. exists (-9223372036854775808), 9223372036854775807. split; [reflexivity|exact Hz].
Qed.
Ltac items := apply stands_vec; repeat constructor; lia.

(** A Where on arrays, a Squeeze to a scalar, a Cast to booleans and a Reshape. *)
Example C51_where :
  let n := mkNode "Where" "w" [var "c" (ShapeT 2); var "a" (ShapeT 2); var "b" (ShapeT 2)] [var "o" (ShapeT 2)] [] in
  let e := bind (bind (bind (fun _ => None) "c" (RShape [1; 0])) "a" (RShape [5; 6])) "b" (RShape [7; 8]) in
  let ins := [(BoolT, mkT [2%N] [EB true; EB false]); (I64, vec [5; 6]); (I64, vec [7; 8])] in
  Forall2 (given no_values e) (ninputs n) ins /\ covered (known no_values) n ins /\ onnx_node n ins (I64, vec [5; 8]) /\
  infer_node no_values 13 n = IOk (ShapeT 2).
Proof.
  cbv zeta. split; [|split; [|split]].
  - constructor; [|constructor; [|constructor; [|constructor]]]; (eapply given_var; [reflexivity|reflexivity|]); [|items|items].
    split; [reflexivity|]. split; [repeat constructor|]. split; [reflexivity|]. right. repeat split. repeat apply Forall_cons; auto.
  - eapply cov_where_items; reflexivity.
  - apply on_where; reflexivity.
  - reflexivity.
Qed.
Example C51_squeeze :
  let n := mkNode "Squeeze" "q" [var "x" (ShapeT 1)] [var "o" (ScalarNative I64)] [] in
  let e := bind (fun _ => None) "x" (RShape [5]) in
  Forall2 (given no_values e) (ninputs n) [(I64, vec [5])] /\ covered (known no_values) n [(I64, vec [5])] /\
  onnx_node n [(I64, vec [5])] (I64, mkT [] [EI 5]) /\ infer_node no_values 13 n = IOk (ScalarNative I64).
Proof.
  cbv zeta. split; [|split; [|split]].
  - constructor; [|constructor]. eapply given_var; [reflexivity|reflexivity|items].
  - eapply cov_squeeze; try reflexivity. intros _. split; [reflexivity|discriminate].
  - apply (on_squeeze _ I64 (vec [5]) [] None []); try reflexivity. apply del_drop; [reflexivity|constructor].
  - reflexivity.
Qed.
Example C51_cast :
  let n := mkNode "Cast" "q" [var "x" (ShapeT 2)] [var "o" (TensorT (mkTT BoolT 1 (Some [Some 2%N])))] [("to", AInt 9)] in
  let e := bind (fun _ => None) "x" (RShape [5; 0]) in
  Forall2 (given no_values e) (ninputs n) [(I64, vec [5; 0])] /\ covered (known no_values) n [(I64, vec [5; 0])] /\
  onnx_node n [(I64, vec [5; 0])] (BoolT, mkT [2%N] [EB true; EB false]) /\
  infer_node no_values 13 n = IOk (TensorT (mkTT BoolT 1 (Some [Some 2%N]))).
Proof.
  cbv zeta. split; [|split; [|split]].
  - constructor; [|constructor]. eapply given_var; [reflexivity|reflexivity|items].
  - eapply (cov_cast _ _ _ _ BoolT); try reflexivity. right; reflexivity.
  - apply (on_cast _ I64 (vec [5; 0]) BoolT); reflexivity.
  - reflexivity.
Qed.
Definition r_values (l : list Z) (a : arg) : option cval :=
  if String.eqb (aname a) "r" then Some (mkC [N.of_nat (length l)] I64 (Some l)) else None.
Lemma reshape_infer_one k : reshape_of false [k] [-1] [k].
Proof.
  split; [reflexivity|]. split; [reflexivity|]. split.
  { intros [|i] [|j] Hi Hj; try reflexivity; [destruct j; discriminate Hj|destruct i; discriminate Hi|destruct i; discriminate Hi]. }
  split; [discriminate|]. intros [|i] v d Hv Hd; [|destruct i; discriminate Hv]. injection Hv as <-. auto.
Qed.
Lemma reshape_keep_one k : reshape_of false [k] [0] [k].
Proof.
  split; [reflexivity|]. split; [reflexivity|]. split.
  { intros [|i] j Hi Hj; [discriminate Hi|destruct i; discriminate Hi]. }
  split; [discriminate|]. intros [|i] v d Hv Hd; [|destruct i; discriminate Hv]. injection Hv as <-. injection Hd as <-. right. right. left. auto.
Qed.
Example C51_reshape :
  let n := mkNode "Reshape" "q" [var "x" (ShapeT 2); const "r"] [var "o" (ShapeT 2)] [] in
  let e := bind (fun _ => None) "x" (RShape [5; 0]) in
  let ins := [(I64, vec [5; 0]); (I64, vec [-1])] in
  Forall2 (given (r_values [-1]) e) (ninputs n) ins /\ covered (known (r_values [-1])) n ins /\
  onnx_node n ins (I64, vec [5; 0]) /\ infer_node (r_values [-1]) 13 n = IOk (ShapeT 2).
Proof.
  cbv zeta. split; [|split; [|split]].
  - constructor; [|constructor; [|constructor]].
    + eapply given_var; [reflexivity|reflexivity|items].
    + eapply given_static; [reflexivity|split; [reflexivity|repeat constructor; integer]|intros []].
  - eapply cov_reshape; try reflexivity; [discriminate|]. right. exists (-1). split; [reflexivity|discriminate].
  - apply (on_reshape _ I64 (vec [5; 0]) (vec [-1]) [-1] 0 [2%N]); try reflexivity.
    apply reshape_infer_one.
  - reflexivity.
Qed.

(** ** What fails.  The inputs hold the values of an ONNX execution and type
    inference records a type for the output, but the emitted code does not
    compute a value of that type standing for the result. *)
Definition miscomputed (value : arg -> option cval) (n : rnode) : Prop :=
  exists ins out e o, noutputs n = [o] /\ Forall2 (given value e) (ninputs n) ins /\ onnx_node n ins out /\
    infer_node value 13 n = IOk (aty o) /\
    forall s v, gen_node value n = Some s -> exec e s = Some v -> ~ stands_for (fst out) (aty o) v (snd out).
(** Worse: no value of the recorded type stands for the result, whatever the code. *)
Definition mistyped (value : arg -> option cval) (n : rnode) : Prop :=
  exists ins out e o, noutputs n = [o] /\ Forall2 (given value e) (ninputs n) ins /\ onnx_node n ins out /\
    infer_node value 13 n = IOk (aty o) /\ forall v, ~ stands_for (fst out) (aty o) v (snd out).

Ltac wrong := let s := fresh in let v := fresh in let Hs := fresh "Hs" in let Hv := fresh "Hv" in
  intros s v Hs Hv; vm_compute in Hs; try discriminate Hs; injection Hs as <-; vm_compute in Hv; try discriminate Hv; injection Hv as <-.

(** Shape: bounds are not clamped to the rank. *)
Theorem C51_shape_bounds_refuted :
  miscomputed no_values (mkNode "Shape" "n" [var "x" f3] [var "o" (ShapeT 10)] [("end", AInt 10)]).
Proof.
  exists [(F32, x_value)], (I64, vec [2; 3; 4]), (bind (fun _ => None) "x" (RTensor x_value)), (var "o" (ShapeT 10)).
  split; [reflexivity|]. split; [constructor; [|constructor]; eapply given_var; [reflexivity|reflexivity|]|].
  { split; [reflexivity|]. split; [|repeat split; discriminate]. apply Forall_forall. intros y Hy. apply repeat_spec in Hy. subst y. eexists. reflexivity. }
  split; [apply (on_shape _ F32 x_value 0 10); reflexivity|]. split; [reflexivity|]. wrong.
Qed.
Print Assumptions C51_shape_bounds_refuted.

(** Gather from an array: a 32-bit index does not compile. *)
Theorem C51_index_32_refuted :
  miscomputed no_values (mkNode "Gather" "n" [var "x" (ShapeT 2); var "i" (ScalarNative I32)] [var "o" (ScalarNative I64)] []).
Proof.
  exists [(I64, vec [5; 6]); (I32, mkT [] [EI 1])], (I64, mkT [] [EI 6]), (bind (bind (fun _ => None) "x" (RShape [5; 6])) "i" (RNative (EI 1))), (var "o" (ScalarNative I64)).
  split; [reflexivity|]. split; [constructor; [|constructor; [|constructor]]; (eapply given_var; [reflexivity|reflexivity|])|].
  { items. } { split; [reflexivity|]. split; [repeat constructor; integer|split; reflexivity]. }
  split; [apply (on_gather _ I64 _ I32 _ 0); auto|]. split; [reflexivity|]. wrong.
Qed.
Print Assumptions C51_index_32_refuted.

(** Indices in a device tensor: one item is recorded, whatever their number. *)
Theorem C51_index_tensor_refuted :
  miscomputed no_values (mkNode "Gather" "n" [var "x" (ShapeT 2); var "i" (TensorT (mkTT I64 1 None))] [var "o" (ShapeT 1)] []).
Proof.
  exists [(I64, vec [5; 6]); (I64, vec [1; 0])], (I64, vec [6; 5]), (bind (bind (fun _ => None) "x" (RShape [5; 6])) "i" (RTensor (vec [1; 0]))), (var "o" (ShapeT 1)).
  split; [reflexivity|]. split; [constructor; [|constructor; [|constructor]]; (eapply given_var; [reflexivity|reflexivity|])|].
  { items. } { split; [reflexivity|]. split; [repeat constructor; integer|repeat split; discriminate]. }
  split; [apply (on_gather _ I64 _ I64 _ 0); auto|]. split; [reflexivity|]. wrong.
Qed.
Print Assumptions C51_index_tensor_refuted.

(** Concat of an array and a tensor of rank 1: recorded as an array, but the
    code does not compile. *)
Theorem C51_concat_tensor_refuted :
  miscomputed no_values (mkNode "Concat" "n" [var "x" (ShapeT 2); var "i" (TensorT (mkTT I64 1 (Some [Some 1%N])))] [var "o" (ShapeT 3)] [("axis", AInt 0)]).
Proof.
  exists [(I64, vec [5; 6]); (I64, vec [7])], (I64, vec [5; 6; 7]), (bind (bind (fun _ => None) "x" (RShape [5; 6])) "i" (RTensor (vec [7]))), (var "o" (ShapeT 3)).
  split; [reflexivity|]. split; [constructor; [|constructor; [|constructor]]; (eapply given_var; [reflexivity|reflexivity|])|].
  { items. } { split; [reflexivity|]. split; [repeat constructor; integer|repeat split; discriminate]. }
  split.
  { apply (on_concat _ I64 [vec [5; 6]; vec [7]] 0); try reflexivity.
    exists [3%N]. split; [reflexivity|]. split; [|reflexivity]. split; [discriminate|]. split; [cbn; lia|]. split.
    - intros s [<-|[<-|[]]]; (split; [reflexivity|]); intros [|k] H; [elim H; reflexivity|destruct k; reflexivity|elim H; reflexivity|destruct k; reflexivity].
    - reflexivity. }
  split; [reflexivity|]. wrong.
Qed.
Print Assumptions C51_concat_tensor_refuted.

(** Slice: backwards, and with the start after the end. *)
Definition cut_values (s e k : Z) (a : arg) : option cval :=
  if String.eqb (aname a) "start" then Some (mkC [1%N] I64 (Some [s]))
  else if String.eqb (aname a) "end" then Some (mkC [1%N] I64 (Some [e]))
  else if String.eqb (aname a) "axis" then Some (mkC [1%N] I64 (Some [0]))
  else if String.eqb (aname a) "step" then Some (mkC [1%N] I64 (Some [k]))
  else None.
Definition slice_node (k : N) : rnode :=
  mkNode "Slice" "n" [var "x" (ShapeT 3); const "start"; const "end"; const "axis"; const "step"] [var "o" (ShapeT k)] [].
Ltac sliced s e k :=
  (split; [reflexivity|]); (split; [constructor; [eapply given_var; [reflexivity|reflexivity|items]|];
    repeat (constructor; [eapply given_static; [reflexivity|split; [reflexivity|repeat constructor; integer]|intros []]|]); constructor|]);
  (split; [apply (on_slice _ I64 (vec [4; 5; 6]) _ [mkCut 0 s e k]); try reflexivity;
    [repeat constructor|split; [intros a [<-|[]]; cbn; lia|repeat constructor; intros []]|intros c [<-|[]]; discriminate]|]);
  (split; [reflexivity|]); wrong.
Theorem C51_slice_backwards_refuted : miscomputed (cut_values (-1) (-4) (-1)) (slice_node 0).
Proof.
  exists [(I64, vec [4; 5; 6]); (I64, vec [-1]); (I64, vec [-4]); (I64, vec [0]); (I64, vec [-1])], (I64, vec [6; 5; 4]),
         (bind (fun _ => None) "x" (RShape [4; 5; 6])), (var "o" (ShapeT 0)). sliced (-1) (-4) (-1).
Qed.
Print Assumptions C51_slice_backwards_refuted.
Theorem C51_slice_empty_refuted : miscomputed (cut_values 2 1 1) (slice_node 0).
Proof.
  exists [(I64, vec [4; 5; 6]); (I64, vec [2]); (I64, vec [1]); (I64, vec [0]); (I64, vec [1])], (I64, vec []),
         (bind (fun _ => None) "x" (RShape [4; 5; 6])), (var "o" (ShapeT 0)). sliced 2 1 1.
Qed.
Print Assumptions C51_slice_empty_refuted.

(** Squeeze of an array of one boolean: recorded as an integer. *)
Theorem C51_squeeze_bool_refuted : mistyped no_values (mkNode "Squeeze" "n" [var "x" (ShapeT 1)] [var "o" (ScalarNative I64)] []).
Proof.
  exists [(BoolT, mkT [1%N] [EB true])], (BoolT, mkT [] [EB true]), (bind (fun _ => None) "x" (RShape [1])), (var "o" (ScalarNative I64)).
  split; [reflexivity|]. split; [constructor; [|constructor]; eapply given_var; [reflexivity|reflexivity|]|].
  { split; [reflexivity|]. split; [repeat constructor|]. split; [reflexivity|]. right. repeat split. repeat apply Forall_cons; auto. }
  split; [apply (on_squeeze _ BoolT (mkT [1%N] [EB true]) [] None []); try reflexivity; apply del_drop; [reflexivity|constructor]|].
  split; [reflexivity|]. intros v (_ & _ & H). destruct v; try contradiction. destruct H as [H _]. discriminate H.
Qed.
Print Assumptions C51_squeeze_bool_refuted.

(** Unsqueeze of a 32-bit scalar: recorded as an array of 64-bit integers. *)
Theorem C51_unsqueeze_32_refuted :
  mistyped (r_values [0]) (mkNode "Unsqueeze" "n" [var "x" (ScalarNative I32); const "r"] [var "o" (ShapeT 1)] []).
Proof.
  exists [(I32, mkT [] [EI 5]); (I64, vec [0])], (I32, mkT [1%N] [EI 5]), (bind (fun _ => None) "x" (RNative (EI 5))), (var "o" (ShapeT 1)).
  split; [reflexivity|]. split; [constructor; [|constructor; [|constructor]]|].
  { eapply given_var; [reflexivity|reflexivity|]. split; [reflexivity|]. split; [repeat constructor; integer|split; reflexivity]. }
  { eapply given_static; [reflexivity|split; [reflexivity|repeat constructor; integer]|intros []]. }
  split.
  { apply (on_unsqueeze _ I32 (mkT [] [EI 5]) _ [0] [1%N]); try reflexivity.
    split; [reflexivity|]. split; [split; [intros a [<-|[]]; cbn; lia|repeat constructor; intros []]|]. split.
    - intros [|k] d _ H; cbn in H; [injection H as <-; reflexivity|destruct k; discriminate H].
    - apply del_drop; [exists 0; cbn; auto|]. constructor. }
  split; [reflexivity|]. intros v (_ & _ & H). destruct v; try contradiction. destruct H as (_ & [[H _]|[H _]]); discriminate H.
Qed.
Print Assumptions C51_unsqueeze_32_refuted.

(** Where on arrays of different lengths: not broadcast. *)
Theorem C51_where_lengths_refuted :
  miscomputed no_values (mkNode "Where" "w" [var "c" (ShapeT 2); var "a" (ShapeT 2); var "b" (ShapeT 1)] [var "o" (ShapeT 2)] []).
Proof.
  exists [(BoolT, mkT [2%N] [EB true; EB false]); (I64, vec [5; 6]); (I64, vec [7])], (I64, vec [5; 7]),
    (bind (bind (bind (fun _ => None) "c" (RShape [1; 0])) "a" (RShape [5; 6])) "b" (RShape [7])), (var "o" (ShapeT 2)).
  split; [reflexivity|]. split; [constructor; [|constructor; [|constructor; [|constructor]]]; (eapply given_var; [reflexivity|reflexivity|]); [|items|items]|].
  { split; [reflexivity|]. split; [repeat constructor|]. split; [reflexivity|]. right. repeat split. repeat apply Forall_cons; auto. }
  split; [apply on_where; reflexivity|]. split; [reflexivity|]. wrong. intros (_ & _ & H & _). discriminate H.
Qed.
Print Assumptions C51_where_lengths_refuted.

(** Where with a condition on the device and two scalars: recorded as a tensor
    of rank 1, the result is a scalar. *)
Theorem C51_where_device_refuted :
  mistyped no_values (mkNode "Where" "w" [var "c" (ScalarTensor BoolT); var "a" (ScalarNative I64); var "b" (ScalarNative I64)]
                                         [var "o" (TensorT (mkTT I64 1 None))] []).
Proof.
  exists [(BoolT, mkT [] [EB true]); (I64, mkT [] [EI 5]); (I64, mkT [] [EI 6])], (I64, mkT [] [EI 5]),
    (bind (bind (bind (fun _ => None) "c" (RTensor (mkT [1%N] [EB true]))) "a" (RNative (EI 5))) "b" (RNative (EI 6))), (var "o" (TensorT (mkTT I64 1 None))).
  split; [reflexivity|]. split; [constructor; [|constructor; [|constructor; [|constructor]]]; (eapply given_var; [reflexivity|reflexivity|]);
    (split; [reflexivity|]; split; [repeat constructor; try integer|repeat split])|].
  split; [apply on_where; reflexivity|]. split; [reflexivity|]. intros v (_ & _ & H). destruct v; try contradiction. destruct H as (_ & _ & H & _). discriminate H.
Qed.
Print Assumptions C51_where_device_refuted.

(** Cast of an array to another integer type: recorded as an array of 64-bit
    integers, the items are not converted. *)
Theorem C51_cast_32_refuted : mistyped no_values (mkNode "Cast" "n" [var "x" (ShapeT 1)] [var "o" (ShapeT 1)] [("to", AInt 6)]).
Proof.
  exists [(I64, vec [5])], (I32, vec [5]), (bind (fun _ => None) "x" (RShape [5])), (var "o" (ShapeT 1)).
  split; [reflexivity|]. split; [constructor; [|constructor]; eapply given_var; [reflexivity|reflexivity|items]|].
  split; [apply (on_cast _ I64 (vec [5]) I32); reflexivity|]. split; [reflexivity|].
  intros v (_ & _ & H). destruct v; try contradiction. destruct H as (_ & [[H _]|[H _]]); discriminate H.
Qed.
Print Assumptions C51_cast_32_refuted.

(** Reshape of an array to [0], "keep this dimension": cut to one item. *)
Theorem C51_reshape_zero_refuted :
  miscomputed (r_values [0]) (mkNode "Reshape" "n" [var "x" (ShapeT 2); const "r"] [var "o" (ShapeT 1)] []).
Proof.
  exists [(I64, vec [5; 6]); (I64, vec [0])], (I64, vec [5; 6]), (bind (fun _ => None) "x" (RShape [5; 6])), (var "o" (ShapeT 1)).
  split; [reflexivity|]. split; [constructor; [|constructor; [|constructor]]|].
  { eapply given_var; [reflexivity|reflexivity|items]. }
  { eapply given_static; [reflexivity|split; [reflexivity|repeat constructor; integer]|intros []]. }
  split; [apply (on_reshape _ I64 (vec [5; 6]) (vec [0]) [0] 0 [2%N]); try reflexivity; apply reshape_keep_one|].
  split; [reflexivity|]. wrong. intros (_ & _ & _ & [[_ H]|[H _]]); discriminate H.
Qed.
Print Assumptions C51_reshape_zero_refuted.
