(** C57: the code emitted for graphs with If, Loop and Scan nodes. *)
From Coq Require Import Lia ZifyBool ZifyNat ZifyN.
From Verif Require Import ShapeRun_Spec ShapeRun_Model ShapeRun_Proofs Index_Spec.
From Verif Require Import TensorRun_Spec TensorRun_Model TensorRun_Nodes.
From Verif Require Import Control_Spec Control_Model Control_Cover Control_Proofs Control_Nodes.
Import Tensor_Spec BinOps_Spec RankOps_Spec ShapeRun_Spec TensorRun_Spec Control_Spec Control_Model Control_Cover Control_Proofs.
Open Scope string_scope.
Open Scope list_scope.
Open Scope Z_scope.

Notation known value := (fun a => constant_of value a <> None).

(** The variable [x] holds the ONNX value [t] in the representation chosen for
    the type [T]. *)
Definition variable_holds (e : cenv) (x : string) (T : argty) (t : otensor) : Prop :=
  exists r, look e x = Some (V r) /\ stands_for (fst t) T r (snd t).

(** Whatever the nesting of If, Loop and Scan, the number of iterations and the
    values: if the graph runs, and the variables hold its inputs, then the code
    emitted for its nodes comes to its end, and every value of the graph is held
    by the variable of its name.  Missing: the graphs outside [well], some of
    which fail below (scan outputs of a Loop are left out altogether), and the
    nodes outside [covered_any]; that code is emitted for the branch that is not
    taken is assumed. *)
Theorem C57_control_partial : forall value opset ty ns oe oe' p e,
  rnodes (constant_of value) (fun n ins outs => onnx_any_node n ins outs /\ covered_any (known value) n ins outs) oe ns oe' ->
  Forall (well value opset ty) ns ->
  gen_cnodes value opset ns = Some p ->
  (forall x t, oe x = Some t -> variable_holds e x (ty x) t) ->
  exists k e', (forall fuel, (k <= fuel)%nat -> run fuel p e = Done e') /\
    (forall x t, oe' x = Some t -> variable_holds e' x (ty x) t).
Proof.
  intros value opset ty ns oe oe' p e R W G H.
  destruct (nodes_ok value opset oe ns oe' R (fun _ => True) ty e p) as (l & (k & E) & _ & Hh); [auto|exact W|intros x t _; apply H|exact G|].
  exists k, (l ++ e). split; [|intros x t; apply Hh; exact I]. intros fuel L. exact (run_mono k p e _ E fuel L).
Qed.
Print Assumptions C57_control_partial.

(** *** A graph that meets the hypotheses: a Scan adds up the rows of [x] from
    the last to the first and puts the sums next to each other as columns of
    [ys]; a Loop doubles the last sum [n] times if [flag] is true. *)
Definition var (x : string) (t : argty) : arg := mkArg x t VDynamic.
Definition i64t (r : N) : argty := TensorT (mkTT I64 r None).
Definition no_values (a : arg) : option cval := None.
Definition n_add x y z := mkNode "Add" "n" [var x (i64t 1); var y (i64t 1)] [var z (i64t 1)] [].
Definition scan_graph := mkCG [var "s_in" (i64t 1); var "row" (i64t 1)] [CLeaf (n_add "s_in" "row" "s_out")] [var "s_out" (i64t 1); var "s_out" (i64t 1)].
Definition n_scan := CScan ([var "s0" (i64t 1)] ++ [var "x" (i64t 2)] ++ []) [var "sf" (i64t 1); var "ys" (i64t 2)] [] (mkScan 1 [0] [1] [1] [0]) scan_graph.
Definition then_graph := mkCG [] [CLeaf (n_add "acc" "acc" "d")] [var "d" (i64t 1)].
Definition else_graph := mkCG [] [] [var "acc" (i64t 1)].
Definition n_if := Control_Spec.CIf [var "flag" (ScalarNative BoolT); var "acc" (i64t 1)] [var "acc2" (i64t 1)] ["acc"] then_graph else_graph.
Definition loop_graph := mkCG [var "it" (ScalarNative I64); var "go" (ScalarNative BoolT); var "acc" (i64t 1)] [n_if] [var "go" (ScalarNative BoolT); var "acc2" (i64t 1)].
Definition n_loop := CLoop (var "n" (ScalarNative I64) :: mkArg "" (ScalarNative BoolT) VOptional :: [var "sf" (i64t 1)] ++ [var "flag" (ScalarNative BoolT)])
  [var "y" (i64t 1)] ["flag"] loop_graph.
Definition example_graph := [n_scan; n_loop].
Definition types (x : string) : argty :=
  if String.eqb x "x" then i64t 2 else if String.eqb x "ys" then i64t 2 else if String.eqb x "flag" then ScalarNative BoolT
  else if String.eqb x "go" then ScalarNative BoolT else if String.eqb x "n" then ScalarNative I64 else if String.eqb x "it" then ScalarNative I64 else i64t 1.
Definition xs : tensor elt := mkT [3; 2]%N (map EI [1; 2; 3; 4; 5; 6]).
Definition two (a b : Z) : tensor elt := mkT [2%N] (map EI [a; b]).
Definition inputs : oenv := bind (bind (bind (bind (fun _ => None) "x" (I64, xs)) "s0" (I64, two 0 0)) "n" (int_value 2)) "flag" (bool_value true).
Definition start : cenv := [("x", V (RTensor xs)); ("s0", V (RTensor (two 0 0))); ("n", V (RNative (EI 2))); ("flag", V (RNative (EB true)))].

Notation one_step value := (fun n ins outs => onnx_any_node n ins outs /\ covered_any (known value) n ins outs).
Lemma add_step x y z u v w : onnx_binary I64 OAdd u v = Some w -> one_step no_values (n_add x y z) [(I64, u); (I64, v)] [(I64, w)].
Proof.
  intros H. assert (K : onnx_node (n_add x y z) [(I64, u); (I64, v)] (I64, w)) by (apply (on_binary _ OAdd I64 u v w); [reflexivity|exact H]).
  split; [apply an_one; exact K|apply ca_shapes; [exact K|]]. eapply cov_binary; try reflexivity. split; reflexivity.
Qed.
Ltac reading := split; [reflexivity|intros a c _ K; discriminate K].

Example C57_runs : exists oe', rnodes (constant_of no_values) (one_step no_values) inputs example_graph oe' /\
  oe' "ys" = Some (I64, mkT [2; 3]%N (map EI [5; 8; 9; 6; 10; 12])) /\ oe' "y" = Some (I64, two 36 48).
Proof.
  eexists. split; [|split].
  - eapply rn_cons; [eapply rn_scan with (L := 3%N); try reading; try reflexivity; try discriminate|..].
    { intros [|k] t H; cbn in H; [injection H as <-; split; reflexivity|destruct k; discriminate H]. }
    { do 3 (eapply rs_next with (vs' := [_]) (ss := [_]); [reflexivity|vm_compute; reflexivity|
        eapply rg; [eapply rn_cons; [eapply rn_leaf; [reading|apply add_step; vm_compute; reflexivity]|reflexivity|apply rn_nil]|cbv; reflexivity]|reflexivity|]).
      apply rs_end. }
    { vm_compute. reflexivity. }
    { reflexivity. }
    eapply rn_cons; [eapply rn_loop with (M := Some 2) (C := None); try reading; try reflexivity|..].
    { apply tr_some; [reflexivity|reading]. }
    { apply bg_none. reflexivity. }
    { do 2 (eapply rl_next with (vs' := [_]) (ss := []) (cv := bool_value true); [reflexivity|lia|
        eapply rg; [eapply rn_cons; [eapply rn_if with (b := true); [reading|reflexivity|reflexivity|
          eapply rg; [eapply rn_cons; [eapply rn_leaf; [reading|apply add_step; vm_compute; reflexivity]|reflexivity|apply rn_nil]|cbv; reflexivity]]|reflexivity|apply rn_nil]|cbv; reflexivity]
        |reflexivity|reflexivity|reflexivity|]).
      apply rl_end. reflexivity. }
    { reflexivity. }
    apply rn_nil.
  - vm_compute. reflexivity.
  - vm_compute. reflexivity.
Qed.
Ltac integer := do 2 eexists; split; [reflexivity|split; discriminate].
Ltac ints := repeat (apply Forall_cons; [integer|]); apply Forall_nil.
Ltac plain := split; [exact I|]; split; [discriminate|]; split; [reflexivity|intros c K; discriminate K].
Ltac inputs_plain := repeat (apply Forall_cons; [split; [reflexivity|intros c K; discriminate K]|]); apply Forall_nil.
Ltac all_outputs := repeat (apply Forall_cons; [reflexivity|]); apply Forall_nil.
Ltac names_differ := intros x0 K; cbn in K |- *; intuition (subst; discriminate).
Lemma well_add ty x y z : x <> "" -> y <> "" -> ty x = i64t 1 -> ty y = i64t 1 -> ty z = i64t 1 -> well no_values 13 ty (CLeaf (n_add x y z)).
Proof.
  intros Nx Ny X Y Z. apply w_leaf; [discriminate| | | |reflexivity].
  - repeat (apply Forall_cons; [split; [intros _; cbn; congruence|intros c K; discriminate K]|]). apply Forall_nil.
  - apply Forall_cons; [cbn; unfold Control_Cover.output_ok; cbn; congruence|apply Forall_nil].
  - repeat (apply Forall_cons; [intros _; assumption|]). apply Forall_nil.
Qed.
Example C57_hypotheses : Forall (well no_values 13 types) example_graph /\ (forall x t, inputs x = Some t -> variable_holds start x (types x) t) /\
  exists p e', gen_cnodes no_values 13 example_graph = Some p /\ run 100 p start = Done e' /\ look e' "y" = Some (V (RTensor (two 36 48))).
Proof.
  split; [|split].
  - apply Forall_cons; [|apply Forall_cons; [|apply Forall_nil]].
    + apply w_scan with (states := [var "s_in" (i64t 1)]) (elements := [var "row" (i64t 1)]) (stouts := [var "s_out" (i64t 1)]) (scouts := [var "s_out" (i64t 1)]); try reflexivity.
      1-3: repeat (apply Forall_cons; [plain|]); apply Forall_nil.
      * repeat constructor. eexists. split; [reflexivity|cbn; lia].
      * repeat constructor; lia.
      * repeat constructor; lia.
      * apply w_graph with (ty := types); [intros r c []|all_outputs| |].
        -- apply Forall_cons; [apply well_add; first [discriminate|reflexivity]|apply Forall_nil].
        -- repeat (apply Forall_cons; [split; [discriminate|reflexivity]|]); apply Forall_nil.
      * repeat constructor; cbn; intuition discriminate.
      * intros x H. cbn in H |- *. intuition (subst; discriminate).
      * intros x H [->|[->|(y & ->)]]; cbn in H; intuition discriminate.
      * repeat constructor.
      * repeat constructor.
      * repeat constructor. do 2 eexists. repeat split.
      * repeat constructor. eexists. reflexivity.
      * all_outputs.
      * repeat constructor.
      * repeat constructor. do 2 eexists. repeat split.
      * split; [right; cbn; intuition discriminate|exact I].
      * intros x H. cbn in H |- *. intuition (subst; discriminate).
    + eapply w_loop with (ty := types); try reflexivity.
      * right. split; [plain|reflexivity].
      * left. reflexivity.
      * apply Forall_cons; [plain|apply Forall_nil].
      * apply Forall_cons; [plain|apply Forall_nil].
      * split; [left; reflexivity|]. split; exact I.
      * apply w_graph with (ty := types); [intros r c [H|[]] _ _; injection H as <- <-; reflexivity|all_outputs| |].
        -- apply Forall_cons; [|apply Forall_nil]. apply w_if; try reflexivity; try plain.
           ++ apply Forall_cons; [plain|apply Forall_nil].
           ++ split; [left; reflexivity|]. split; exact I.
           ++ apply w_graph with (ty := types); [intros r c [H|[]] _ _; injection H as <- <-; repeat split|all_outputs| |].
              ** apply Forall_cons; [apply well_add; first [discriminate|reflexivity]|apply Forall_nil].
              ** repeat (apply Forall_cons; [split; [discriminate|reflexivity]|]); apply Forall_nil.
           ++ apply w_graph with (ty := types); [intros r c [H|[]] _ _; injection H as <- <-; repeat split|all_outputs|apply Forall_nil|].
              repeat (apply Forall_cons; [split; [discriminate|reflexivity]|]); apply Forall_nil.
           ++ all_outputs.
           ++ repeat constructor.
           ++ repeat constructor.
        -- repeat (apply Forall_cons; [split; [discriminate|reflexivity]|]); apply Forall_nil.
      * left. reflexivity.
      * repeat constructor; cbn; intuition discriminate.
      * intros x H. cbn in H |- *. intuition (subst; discriminate).
      * repeat constructor.
      * repeat constructor.
      * all_outputs.
      * repeat constructor.
      * split; [right; cbn; tauto|exact I].
      * cbn. intuition discriminate.
  - intros x t H. unfold inputs, bind in H.
    destruct (String.eqb_spec x "flag") as [->|]; [injection H as <-; eexists; split; [reflexivity|]; split; [reflexivity|]; split; [repeat constructor; eexists; reflexivity|split; reflexivity]|].
    destruct (String.eqb_spec x "n") as [->|]; [injection H as <-; eexists; split; [reflexivity|]; split; [reflexivity|]; split; [ints|split; reflexivity]|].
    destruct (String.eqb_spec x "s0") as [->|]; [injection H as <-; eexists; split; [reflexivity|]; split; [reflexivity|]; split; [ints|repeat split; discriminate]|].
    destruct (String.eqb_spec x "x") as [->|]; [|discriminate H]. injection H as <-. eexists. split; [reflexivity|]. split; [reflexivity|]. split; [ints|repeat split; discriminate].
  - eexists _, _. split; [reflexivity|]. split; vm_compute; reflexivity.
Qed.

(** ** What [well] leaves out *)

(** The graph runs, its inputs are held, code is emitted; but the code fails, or
    it comes to its end and the variable of the output [x] does not hold the
    value of [x], in the representation of no type at all. *)
Definition goes_wrong (ty : string -> argty) (ns : list cnode) (oe : oenv) (e : cenv) (x : string) : Prop :=
  exists oe' t p k, rnodes (constant_of no_values) onnx_any_node oe ns oe' /\ (forall x t, oe x = Some t -> variable_holds e x (ty x) t) /\
    oe' x = Some t /\ gen_cnodes no_values 13 ns = Some p /\
    match run k p e with Runs_on => False | Fails => True | Done e' => forall T, ~ variable_holds e' x T t end.
Definition is_loop (ns : list cnode) : Prop := match ns with [CLoop _ _ _ _] => True | _ => False end.
Definition is_scan (ns : list cnode) : Prop := match ns with [CScan _ _ _ _ _] => True | _ => False end.
Definition int : argty := ScalarNative I64.
Definition bln : argty := ScalarNative BoolT.
Definition none : arg := mkArg "" bln VOptional.
Lemma not_int e x z z' : look e x = Some (V (RNative (EI z'))) -> z <> z' -> forall T, ~ variable_holds e x T (int_value z).
Proof. intros L N T (r & E & _ & _ & H). rewrite L in E. injection E as <-. destruct T; cbn in H; try contradiction. destruct H as [_ H]. injection H as ->. contradiction. Qed.
Lemma not_tensor e x u d t : look e x = Some (V (RTensor u)) -> tshape t <> [] -> t <> u -> forall T, ~ variable_holds e x T (d, t).
Proof. intros L N D T (r & E & _ & _ & H). rewrite L in E. injection E as <-. destruct T; cbn in H; try contradiction; [destruct H as (_ & H & _); contradiction|]. destruct H as (H & _). congruence. Qed.
Ltac natives := intros x t H; unfold bind in H;
  repeat match type of H with (if String.eqb x ?s then _ else _) = _ => destruct (String.eqb_spec x s) as [->|];
    [injection H as <-; eexists; split; [reflexivity|]; split; [reflexivity|]; split; [first [ints | repeat constructor; eexists; reflexivity]|repeat split; discriminate]|] end; discriminate H.

Ltac outcome := match goal with |- match ?r with _ => _ end => let o := eval vm_compute in r in change r with o; cbv iota beta end.
Ltac loop_given m := eapply rn_cons; [eapply rn_loop with (M := Some m) (C := None); [apply tr_some; [reflexivity|reading]|apply bg_none; reflexivity|reading|reading|reflexivity|reflexivity| |]| |apply rn_nil].
Ltac round next row c := eapply rl_next with (vs' := next) (ss := row) (cv := bool_value c); [reflexivity|lia|eapply rg; [apply rn_nil|cbv; reflexivity]|reflexivity|reflexivity|reflexivity|].

(** A Loop that exchanges two values: they are assigned one after the other. *)
Theorem C57_exchange_refuted : exists ty ns oe e x, is_loop ns /\ goes_wrong ty ns oe e x.
Proof.
  set (body := mkCG [var "it" int; var "go" bln; var "a" int; var "b" int] [] [var "go" bln; var "b" int; var "a" int]).
  exists (fun _ => int), [CLoop (var "n" int :: none :: [var "a0" int; var "b0" int] ++ []) [var "a1" int; var "b1" int] [] body],
    (bind (bind (bind (fun _ => None) "n" (int_value 1)) "a0" (int_value 3)) "b0" (int_value 4)),
    [("n", V (RNative (EI 1))); ("a0", V (RNative (EI 3))); ("b0", V (RNative (EI 4)))], "b1". split; [exact I|].
  eexists _, (int_value 3), _, 50%nat. split; [|split; [|split; [|split; [reflexivity|]]]].
  - loop_given 1.
    + round [int_value 4; int_value 3] (@nil otensor) true. apply rl_end. reflexivity.
    + reflexivity.
    + reflexivity.
  - natives.
  - reflexivity.
  - outcome. eapply not_int; [reflexivity|discriminate].
Qed.
(** A Loop whose body hands on a carried value as its condition: it is read
    after it has been replaced. *)
Theorem C57_condition_refuted : exists ty ns oe e x, is_loop ns /\ goes_wrong ty ns oe e x.
Proof.
  set (body := mkCG [var "it" int; var "go" bln; var "v" bln; var "k" int] [] [var "v" bln; var "u" bln; var "it" int]).
  exists (fun x => if mem_str x ["n"; "k0"; "k1"] then int else bln),
    [CLoop (var "n" int :: var "c0" bln :: [var "v0" bln; var "k0" int] ++ [var "u" bln]) [var "v1" bln; var "k1" int] ["u"] body],
    (bind (bind (bind (bind (bind (fun _ => None) "n" (int_value 9)) "c0" (bool_value true)) "v0" (bool_value true)) "k0" (int_value 7)) "u" (bool_value false)),
    [("n", V (RNative (EI 9))); ("c0", V (RNative (EB true))); ("v0", V (RNative (EB true))); ("k0", V (RNative (EI 7))); ("u", V (RNative (EB false)))], "k1". split; [exact I|].
  eexists _, (int_value 1), _, 50%nat. split; [|split; [|split; [|split; [reflexivity|]]]].
  - eapply rn_cons; [eapply rn_loop with (M := Some 9) (C := Some true); [apply tr_some; [reflexivity|reading]|eapply bg_some; [reflexivity|reading|reflexivity|reflexivity]|reading|reading|reflexivity|reflexivity| |]| |apply rn_nil].
    + round [bool_value false; int_value 0] (@nil otensor) true. round [bool_value false; int_value 1] (@nil otensor) false. apply rl_end. reflexivity.
    + reflexivity.
    + reflexivity.
  - natives.
  - reflexivity.
  - outcome. eapply not_int; [reflexivity|discriminate].
Qed.
(** A Loop without initial condition whose body computes one: ONNX ignores it
    ([for (i = 0; i < M; ++i)]), the code does not. *)
Theorem C57_ignored_condition_refuted : exists ty ns oe e x, is_loop ns /\ goes_wrong ty ns oe e x.
Proof.
  set (body := mkCG [var "it" int; var "go" bln; var "k" int] [] [var "u" bln; var "it" int]).
  exists (fun x => if mem_str x ["n"; "k0"; "k1"] then int else bln),
    [CLoop (var "n" int :: none :: [var "k0" int] ++ [var "u" bln]) [var "k1" int] ["u"] body],
    (bind (bind (bind (fun _ => None) "n" (int_value 2)) "k0" (int_value 7)) "u" (bool_value false)),
    [("n", V (RNative (EI 2))); ("k0", V (RNative (EI 7))); ("u", V (RNative (EB false)))], "k1". split; [exact I|].
  eexists _, (int_value 1), _, 50%nat. split; [|split; [|split; [|split; [reflexivity|]]]].
  - loop_given 2.
    + round [int_value 0] (@nil otensor) false. round [int_value 1] (@nil otensor) false. apply rl_end. reflexivity.
    + reflexivity.
    + reflexivity.
  - natives.
  - reflexivity.
  - outcome. eapply not_int; [reflexivity|discriminate].
Qed.
(** The scan outputs of a Loop are a new axis; the code joins them along the
    first axis they have, and numbers end up in a matrix with one column. *)
Theorem C57_loop_scan_refuted : exists ty ns oe e x, is_loop ns /\ goes_wrong ty ns oe e x.
Proof.
  set (body := mkCG [var "it" int; var "go" bln] [] [var "go" bln; var "v" (i64t 1)]).
  exists (fun x => if String.eqb x "n" then int else i64t 1),
    [CLoop (var "n" int :: none :: [] ++ [var "v" (i64t 1)]) [var "ys" (i64t 1)] ["v"] body],
    (bind (bind (fun _ => None) "n" (int_value 2)) "v" (I64, two 5 6)),
    [("n", V (RNative (EI 2))); ("v", V (RTensor (two 5 6)))], "ys". split; [exact I|].
  eexists _, (I64, mkT [2; 2]%N (map EI [5; 6; 5; 6])), _, 50%nat. split; [|split; [|split; [|split; [reflexivity|]]]].
  - loop_given 2.
    + round (@nil otensor) [(I64, two 5 6)] true. round (@nil otensor) [(I64, two 5 6)] true. apply rl_end. reflexivity.
    + vm_compute. reflexivity.
    + reflexivity.
  - natives.
  - reflexivity.
  - outcome. eapply not_tensor; [reflexivity|discriminate|discriminate].
Qed.
Theorem C57_loop_scan_numbers_refuted : exists ty ns oe e x, is_loop ns /\ goes_wrong ty ns oe e x.
Proof.
  set (body := mkCG [var "it" int; var "go" bln] [] [var "go" bln; var "it" int]).
  exists (fun x => if String.eqb x "n" then int else i64t 1),
    [CLoop (var "n" int :: none :: [] ++ []) [var "ys" (i64t 2)] [] body],
    (bind (fun _ => None) "n" (int_value 2)), [("n", V (RNative (EI 2)))], "ys". split; [exact I|].
  eexists _, (I64, mkT [2]%N (map EI [0; 1])), _, 50%nat. split; [|split; [|split; [|split; [reflexivity|]]]].
  - loop_given 2.
    + round (@nil otensor) [int_value 0] true. round (@nil otensor) [int_value 1] true. apply rl_end. reflexivity.
    + vm_compute. reflexivity.
    + reflexivity.
  - natives.
  - reflexivity.
  - outcome. eapply not_tensor; [reflexivity|discriminate|discriminate].
Qed.

(** A Scan that collects the state it is given: the state is replaced first. *)
Definition column_of (a b : Z) : tensor elt := mkT [2; 1]%N (map EI [a; b]).
Definition one (a : Z) : tensor elt := mkT [1%N] [EI a].
Ltac scan_two := eapply rn_cons; [eapply rn_scan with (L := 2%N); try reading; try reflexivity; try discriminate;
  [intros [|k] t H; cbn in H; [injection H as <-; split; reflexivity|destruct k; discriminate H]| |]| |apply rn_nil].
Ltac scan_round next line := eapply rs_next with (vs' := next) (ss := line); [reflexivity|vm_compute; reflexivity|eapply rg; [apply rn_nil|cbv; reflexivity]|reflexivity|].
Theorem C57_scan_state_refuted : exists ty ns oe e x, is_scan ns /\ goes_wrong ty ns oe e x.
Proof.
  set (body := mkCG [var "s" (i64t 1); var "row" (i64t 1)] [] [var "row" (i64t 1); var "s" (i64t 1)]).
  exists (fun x => if String.eqb x "x" then i64t 2 else i64t 1),
    [CScan ([var "s0" (i64t 1)] ++ [var "x" (i64t 2)] ++ []) [var "s1" (i64t 1); var "ys" (i64t 2)] [] (mkScan 1 [0] [0] [0] [0]) body],
    (bind (bind (fun _ => None) "x" (I64, column_of 3 4)) "s0" (I64, one 9)),
    [("x", V (RTensor (column_of 3 4))); ("s0", V (RTensor (one 9)))], "ys". split; [exact I|].
  eexists _, (I64, column_of 9 3), _, 50%nat. split; [|split; [|split; [|split; [reflexivity|]]]].
  - scan_two.
    + scan_round [(I64, one 3)] [(I64, one 9)]. scan_round [(I64, one 4)] [(I64, one 3)]. apply rs_end.
    + vm_compute. reflexivity.
    + reflexivity.
  - natives.
  - reflexivity.
  - outcome. eapply not_tensor; [reflexivity|discriminate|discriminate].
Qed.
(** A Scan that takes a value called [i] from the surrounding graph. *)
Theorem C57_scan_name_refuted : exists ty ns oe e x, is_scan ns /\ goes_wrong ty ns oe e x.
Proof.
  set (body := mkCG [var "s" (i64t 1); var "row" (i64t 1)] [] [var "i" (i64t 1); var "row" (i64t 1)]).
  exists (fun x => if String.eqb x "x" then i64t 2 else i64t 1),
    [CScan ([var "s0" (i64t 1)] ++ [var "x" (i64t 2)] ++ [var "i" (i64t 1)]) [var "s1" (i64t 1); var "ys" (i64t 2)] ["i"] (mkScan 1 [0] [0] [0] [0]) body],
    (bind (bind (bind (fun _ => None) "x" (I64, column_of 3 4)) "s0" (I64, one 9)) "i" (I64, one 7)),
    [("x", V (RTensor (column_of 3 4))); ("s0", V (RTensor (one 9))); ("i", V (RTensor (one 7)))], "s1". split; [exact I|].
  eexists _, (I64, one 7), _, 50%nat. split; [|split; [|split; [|split; [reflexivity|]]]].
  - scan_two.
    + scan_round [(I64, one 7)] [(I64, one 3)]. scan_round [(I64, one 7)] [(I64, one 4)]. apply rs_end.
    + vm_compute. reflexivity.
    + reflexivity.
  - natives.
  - reflexivity.
  - outcome. exact I.
Qed.
(** A Scan with a negative axis: it becomes a huge number. *)
Lemma dim_fails f y x t a rest e : look e x = Some (V (RTensor t)) -> (length (tshape t) <= N.to_nat a)%nat -> run (S f) (SLet y (EDim x a) :: rest) e = Fails.
Proof. intros L H. cbn [run eval]. unfold tens, vars. rewrite L. cbn [obind]. rewrite (proj2 (nth_error_None _ _) H). reflexivity. Qed.
Lemma block_fails f ys b rs rest e : run f b e = Fails -> run (S f) (SBlock ys b rs :: rest) e = Fails.
Proof. intros H. cbn [run]. rewrite H. reflexivity. Qed.
Theorem C57_scan_axis_refuted : exists ty ns oe e x, is_scan ns /\ goes_wrong ty ns oe e x.
Proof.
  set (body := mkCG [var "row" (i64t 1)] [] [var "row" (i64t 1)]).
  exists (fun _ => i64t 2),
    [CScan ([] ++ [var "x" (i64t 2)] ++ []) [var "ys" (i64t 2)] [] (mkScan 1 [-2] [0] [0] [0]) body],
    (bind (fun _ => None) "x" (I64, column_of 3 4)), [("x", V (RTensor (column_of 3 4)))], "ys". split; [exact I|].
  eexists _, (I64, column_of 3 4), _, 50%nat. split; [|split; [|split; [|split; [reflexivity|]]]].
  - scan_two.
    + scan_round (@nil otensor) [(I64, one 3)]. scan_round (@nil otensor) [(I64, one 4)]. apply rs_end.
    + vm_compute. reflexivity.
    + reflexivity.
  - natives.
  - reflexivity.
  - match goal with |- match ?r with _ => _ end => assert (K : r = Fails); [|rewrite K; exact I] end.
    apply (block_fails 49).
    match goal with |- run _ (_ ++ _ ++ (_ :: ?b) ++ ?c) ?e = _ =>
      change (run 48 (SLet "seq_len" (EDim "x" (usize (-2))) :: b ++ c) ((coll 0, VVec []) :: e) = Fails) end.
    apply (dim_fails 47 _ _ (column_of 3 4)); [reflexivity|]. change (usize (-2)) with 18446744073709551614%N. cbn [column_of tshape length]. lia.
Qed.
