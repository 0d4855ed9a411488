(** C11: the imported nodes compute what the ONNX graph computes. *)
From Verif Require Import IR_Model IR_Spec Names_Model Import_Model Import_Spec Import_Proofs.
Open Scope string_scope.
Open Scope list_scope.
Open Scope N_scope.

(** [g] is imported as nodes [ns], inputs [ins], outputs [outs] and embedded
    data [store].  The inputs are the graph inputs without an initializer, in
    order, under their sanitised names; every graph output is there; and
    whenever the ONNX graph, started with the values [e], gives a graph output
    a value, the imported nodes, started with the same values under the
    sanitised names, run and give it the same value.  For every meaning of the
    operators that satisfies [onnx_laws].  [lift] tells which inputs become
    embedded values: any choice is right.
    Missing: control flow nodes, and the graphs that [legal_graph] excludes
    although ONNX allows them, see the refutations below and C14. *)
Theorem C11_import_partial : forall V
    (osem : string -> list (string * attr) -> nat -> list (option V) -> option (list V)) (cval : attr -> V)
    tinfo lift outer r g ns ins outs store,
  onnx_laws osem cval -> legal_graph g ->
  (forall k a, sget outer k = Some a -> asrc a = VDynamic) -> sget outer "" = None ->
  import tinfo lift outer r g = Some (ns, ins, outs, store) ->
  map aname ins = map san (filter (fun x => negb (mem_str x (init_names_of g))) (in_names_of g)) /\
  length outs = length (pg_out g) /\
  forall (e ef ie : string -> option V),
    (forall o v, In o (graph_names g) -> o <> "" -> e o = Some v -> ie (san o) = Some v) ->
    o_run osem cval e g = Some ef ->
    exists ie', run (ir_sem osem) (static_of cval store) ie ns = Some ie' /\
      Forall2 (fun x a => forall v, ef (fst x) = Some v -> arg_eval (static_of cval store) ie' a = Some (Some v)) (pg_out g) outs.
Proof.
  intros V osem cval tinfo lift outer r g ns ins outs store laws legal Hd He Hi.
  destruct (import_shape tinfo lift outer r g ns ins outs store legal Hd He Hi) as [H1 H2].
  split; [exact H1|]. split; [exact H2|]. intros e ef ie Hie Hr.
  exact (proj2 (import_values osem cval tinfo lift outer r g ns ins outs store laws legal Hd He Hi e ef ie Hie Hr)).
Qed.
Print Assumptions C11_import_partial.

(** A graph with initializers, a Gemm and a MatMul with Add that become linear
    layers, an omitted input, a Constant, names that are changed, and an input
    that is an initializer. *)
Definition t2 (a b : N) : argty := TensorT (mkTT F32 2 (Some [Some a; Some b])).
Definition ex_graph : pgraph := mkG
  [("/in/x", Some (t2 2 3)); ("w", Some (t2 4 3))]
  [("/net/Sum:0", Some (t2 2 5)); ("y", None)]
  [("w", 1); ("b", 2); ("w2", 3); ("b2", 4); ("top", 5)]
  [("h", Some (t2 2 4))]
  [mkP "Gemm" ["/in/x"; "w"; "b"] ["h"] [("alpha", AFloat f32_one); ("beta", AFloat f32_one); ("transB", AInt 1)];
   mkP "MatMul" ["h"; "w2"] ["m"] [];
   mkP "Add" ["b2"; "m"] ["y"] [];
   mkP "Clip" ["y"; ""; "top"] ["z"] [];
   mkP "Constant" [] ["c"] [("value_float", AFloat 0)];
   mkP "Add" ["z"; "c"] ["/net/Sum:0"] []].
Definition ex_tinfo (p : N) : dtype * list N :=
  (F32, if p =? 1 then [4; 3] else if p =? 2 then [4] else if p =? 3 then [4; 5] else if p =? 4 then [5] else []).
Definition ex_lift (n : rnode) : list nat :=
  if String.eqb (ntype n) "Linear" then seq 1 (length (ninputs n) - 1)
  else if String.eqb (ntype n) "Clip" then [2%nat] else [].

Lemma ex_legal : legal_graph ex_graph.
Proof.
  apply legal_check_ok; [|vm_compute; reflexivity].
  apply Forall_forall. unfold ex_graph. cbn [pg_nodes].
  repeat constructor; try (cbn; intuition discriminate); try discriminate; try reflexivity;
    try (eexists; split; [reflexivity|discriminate]); cbn.
  - exists (Some f32_one), (Some f32_one), None, (Some 1%Z). split; [reflexivity|auto].
  - exists "value_float", (AFloat 0). reflexivity.
Qed.

(** Numbers for values: addition adds, a matrix product or a Gemm is something
    that tells its arguments apart. *)
Definition zval (v : option Z) : Z := match v with Some z => z | None => 1%Z end.
Definition ex_cval (a : attr) : Z := match a with ATensor p => Z.of_N p | _ => 7%Z end.
Definition ex_osem (op : string) (attrs : list (string * attr)) (n : nat) (ins : list (option Z)) : option (list Z) :=
  if String.eqb op "constant" then match attrs with [(_, a)] => Some [ex_cval a] | _ => None end
  else if String.eqb op "add" then Some (repeat (fold_left (fun a v => (a + zval v)%Z) ins 0%Z) n)
  else Some (repeat (fold_left (fun a v => (10 * a + zval v)%Z) ins 0%Z) n).
Lemma ex_laws : onnx_laws ex_osem ex_cval.
Proof.
  split; try reflexivity. intros n x y. cbn. do 2 f_equal. lia.
Qed.

Definition at_ (l : list (string * Z)) (x : string) : option Z := sget l x.
Definition ex_import := import ex_tinfo ex_lift [] [] ex_graph.
Definition ex_nodes : list rnode := match ex_import with Some (ns, _, _, _) => ns | None => [] end.
Definition ex_outs : list arg := match ex_import with Some (_, _, o, _) => o | None => [] end.
Definition ex_store : list attr := match ex_import with Some (_, _, _, s) => s | None => [] end.

Example C11_ex : legal_graph ex_graph /\ onnx_laws ex_osem ex_cval /\
  ex_import <> None /\ map ntype ex_nodes = ["Constant"; "Constant"; "Constant"; "Constant"; "Constant"; "Linear"; "Linear"; "Clip"; "Constant"; "Add"] /\
  map aname ex_outs = ["add1_out1"; "linear2_out1"] /\
  option_map (fun ef => map ef ["/net/Sum:0"; "y"]) (o_run ex_osem ex_cval (at_ [("/in/x", 20%Z)]) ex_graph) = Some [Some 2012722%Z; Some 20127%Z] /\
  option_map (fun ie => map (fun a => ie (aname a)) ex_outs)
    (run (ir_sem ex_osem) (static_of ex_cval ex_store) (at_ [(san "/in/x", 20%Z)]) ex_nodes) = Some [Some 2012722%Z; Some 20127%Z].
Proof.
  split; [exact ex_legal|]. split; [exact ex_laws|]. split; [vm_compute; discriminate|].
  repeat (split; [vm_compute; reflexivity|]). vm_compute. reflexivity.
Qed.

(** What the import of a graph without constants computes, next to what ONNX
    computes, for the first graph output. *)
Definition onnx_result (e : list (string * Z)) (g : pgraph) (x : string) : option Z :=
  match o_run ex_osem ex_cval (at_ e) g with Some ef => ef x | None => None end.
Definition ir_result (e : list (string * Z)) (g : pgraph) (i : nat) : option Z :=
  match import ex_tinfo (fun _ => []) [] [] g with
  | Some (ns, _, outs, store) =>
      match run (ir_sem ex_osem) (static_of ex_cval store) (at_ e) ns, nth_error outs i with
      | Some ie, Some a => match arg_eval (static_of ex_cval store) ie a with Some v => v | None => None end
      | _, _ => None
      end
  | None => None
  end.

(** An omitted output and a later omitted input, both called "", are legal:
    the later input stays omitted. *)
Definition om_graph : pgraph := mkG [("x", Some (t2 2 3)); ("top", Some (t2 2 3))] [("y", None)] [] []
  [mkP "LSTM" ["x"; "x"; "x"] [""; "h"] []; mkP "Clip" ["h"; ""; "top"] ["y"] []].
Example C11_omitted_ex : legal_graph om_graph /\
  onnx_result [("x", 2%Z); ("top", 8%Z)] om_graph "y" = Some 22218%Z /\ ir_result [("x", 2%Z); ("top", 8%Z)] om_graph 0 = Some 22218%Z.
Proof.
  split; [|split; vm_compute; reflexivity].
  apply legal_check_ok; [|vm_compute; reflexivity]. apply Forall_forall. unfold om_graph. cbn [pg_nodes].
  repeat constructor; try (cbn; intuition discriminate); discriminate.
Qed.

(** Names that sanitise alike are taken for each other. *)
Definition col_graph : pgraph := mkG [("X", Some (t2 2 3))] [("y", None)] [] []
  [mkP "Relu" ["X"] ["a"] []; mkP "Add" ["X"; "a"] ["x"] []; mkP "Relu" ["x"] ["y"] []].
Theorem C11_collision_refuted : exists g e, onnx_laws ex_osem ex_cval /\
  NoDup (in_names_of g ++ init_names_of g ++ produced (pg_nodes g)) /\
  onnx_result e g "y" = Some 4%Z /\ ir_result (map (fun p => (san (fst p), snd p)) e) g 0 = Some 2%Z.
Proof.
  exists col_graph, [("X", 2%Z)]. split; [exact ex_laws|].
  split; [apply distinct_ok; reflexivity|]. split; vm_compute; reflexivity.
Qed.
Print Assumptions C11_collision_refuted.

(** An input that is called like the result of a node. *)
Definition cap_graph : pgraph := mkG [("x", Some (t2 2 3)); ("relu1_out1", Some (t2 2 3))] [("y", None)] [] []
  [mkP "Relu" ["x"] ["a"] []; mkP "Add" ["a"; "relu1_out1"] ["y"] []].
Theorem C11_capture_refuted : exists g e, onnx_laws ex_osem ex_cval /\
  NoDup (in_names_of g ++ init_names_of g ++ produced (pg_nodes g)) /\
  (forall a, In a (graph_names g) -> san a = a) /\
  onnx_result e g "y" = Some 7%Z /\ ir_result e g 0 = Some 4%Z.
Proof.
  exists cap_graph, [("x", 2%Z); ("relu1_out1", 5%Z)]. split; [exact ex_laws|].
  split; [apply distinct_ok; reflexivity|]. split.
  - assert (K : forallb (fun a => String.eqb (san a) a) (graph_names cap_graph) = true) by (vm_compute; reflexivity).
    intros a Ha. rewrite forallb_forall in K. apply String.eqb_eq, K, Ha.
  - split; vm_compute; reflexivity.
Qed.
Print Assumptions C11_capture_refuted.

(** The output of a subgraph that is a value of the enclosing graph vanishes. *)
Definition thr_graph : pgraph := mkG [] [("outside", None); ("y", None)] [] []
  [mkP "Relu" ["outside"] ["y"] []].
Theorem C11_outer_output_refuted : exists g ns ins outs store,
  import ex_tinfo ex_lift [("outside", mkArg "outside" (t2 2 3) VDynamic)] [] g = Some (ns, ins, outs, store) /\
  length (pg_out g) = 2%nat /\ length outs = 1%nat.
Proof. exists thr_graph. do 4 eexists. split; [vm_compute; reflexivity|]. split; reflexivity. Qed.
Print Assumptions C11_outer_output_refuted.
