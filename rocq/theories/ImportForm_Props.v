(** C11, the form of the imported nodes: the variant of a convolution or
    pooling node, what its inputs refer to, and the declared types. *)
From Verif Require Import IR_Model IR_Spec Names_Model Import_Model Import_Spec Import_Proofs ImportForm_Spec ImportForm_Proofs Import_Props.
Open Scope string_scope.
Open Scope list_scope.
Open Scope N_scope.

(** Every convolution and pooling node gets a variant for a number of
    dimensions, and it is the number of its spatial dimensions. *)
Theorem C11_spatial_variant : forall tinfo lift outer r g ns ins outs store,
  (forall p, In p (pg_nodes g) -> legal_node p) ->
  import tinfo lift outer r g = Some (ns, ins, outs, store) ->
  forall n, In n ns ->
    ~ In (ntype n) ["Conv"; "ConvTranspose"; "MaxPool"; "AveragePool"] /\
    (ntype n = "Conv1d" \/ ntype n = "ConvTranspose1d" \/ ntype n = "MaxPool1d" \/ ntype n = "AveragePool1d" -> spatial n 1) /\
    (ntype n = "Conv2d" \/ ntype n = "ConvTranspose2d" \/ ntype n = "MaxPool2d" \/ ntype n = "AveragePool2d" -> spatial n 2) /\
    (ntype n = "Conv3d" \/ ntype n = "ConvTranspose3d" -> spatial n 3).
Proof.
  intros tinfo lift outer r g ns ins outs store Hleg H n Hn.
  destruct (variants_spatial _ _ _ _ _ _ _ _ _ Hleg H n Hn) as [H1 H2]. split; [exact H1|].
  split; [|split]; intros Hty.
  - destruct Hty as [E|[E|[E|E]]];
      [apply (H2 "Conv" 1)|apply (H2 "ConvTranspose" 1)|apply (H2 "MaxPool" 1)|apply (H2 "AveragePool" 1)];
      try lia; try exact E; cbn; tauto.
  - destruct Hty as [E|[E|[E|E]]];
      [apply (H2 "Conv" 2)|apply (H2 "ConvTranspose" 2)|apply (H2 "MaxPool" 2)|apply (H2 "AveragePool" 2)];
      try lia; try exact E; cbn; tauto.
  - destruct Hty as [E|E]; [apply (H2 "Conv" 3)|apply (H2 "ConvTranspose" 3)]; try lia; try exact E; cbn; tauto.
Qed.
Print Assumptions C11_spatial_variant.

(** An input of an imported node is embedded data, a graph input, the result of
    an imported node, a constant of the enclosing scope exactly as it is there,
    or a value the graph reads, under its sanitised name, that is no constant. *)
Theorem C11_inputs_resolved : forall tinfo lift outer r g ns ins outs store,
  import tinfo lift outer r g = Some (ns, ins, outs, store) ->
  forall n a, In n ns -> In a (ninputs n) -> resolved outer g ns ins a.
Proof. exact inputs_resolved. Qed.
Print Assumptions C11_inputs_resolved.

(** A graph output keeps the type the model declares for it, if its name needs
    no change.  Missing: results of Constant, MatMul and Add nodes (a Constant
    takes the type of its data, an Add may be swallowed by a linear layer, which
    keeps the type of the MatMul), and see the refutation. *)
Theorem C11_declared_type_partial : forall tinfo lift outer r g ns ins outs store,
  legal_graph g -> NoDup (map fst (pg_out g)) ->
  (forall k a, sget outer k = Some a -> asrc a = VDynamic) -> sget outer "" = None ->
  import tinfo lift outer r g = Some (ns, ins, outs, store) ->
  forall i x t p, nth_error (pg_out g) i = Some (x, Some t) -> san x = x ->
    In p (pg_nodes g) -> In x (p_out p) -> ~ In (lower (p_op p)) ["constant"; "matmul"; "add"] ->
    exists a, nth_error outs i = Some a /\ aty a = t.
Proof.
  intros tinfo lift outer r g ns ins outs store legal Hnd Hd He Hi.
  destruct (import_shape tinfo lift outer r g ns ins outs store legal Hd He Hi) as [_ Hlen].
  exact (declared_types _ _ _ _ _ _ _ _ _ legal Hnd Hlen Hi).
Qed.
Print Assumptions C11_declared_type_partial.

(** A graph with two convolutions, one without kernel_shape, a pooling, and a
    constant of the enclosing scope. *)
Definition t4 : argty := TensorT (mkTT F32 4 (Some [Some 1; Some 3; Some 8; Some 8])).
Definition cv_outer : smap arg := [("limit", mkArg "constant7_out1" (ScalarNative F32) VConstant)].
Definition cv_graph : pgraph := mkG [("x", Some t4)] [("y", Some t4); ("/z", Some t4)] [("w", 1); ("v", 2)] []
  [mkP "Conv" ["x"; "w"] ["a"] [];
   mkP "Conv" ["a"; "v"] ["b"] [("kernel_shape", AInts [3%Z])];
   mkP "MaxPool" ["b"] ["c"] [("kernel_shape", AInts [2%Z; 2%Z])];
   mkP "Clip" ["c"; ""; "limit"] ["y"] [];
   mkP "Relu" ["y"] ["/z"] []].
Definition cv_tinfo (p : N) : dtype * list N := (F32, if p =? 1 then [4; 3; 3; 3] else [4; 4; 3]).
Definition cv_import := import cv_tinfo (fun _ => []) cv_outer [] cv_graph.
Example C11_variant_ex : legal_graph cv_graph /\
  option_map (fun x => let '(ns, ins, outs, store) := x in map ntype ns) cv_import =
    Some ["Constant"; "Constant"; "Conv2d"; "Conv1d"; "MaxPool2d"; "Clip"; "Relu"] /\
  option_map (fun x => let '(ns, ins, outs, store) := x in
     map (fun n => map aname (ninputs n)) (filter (fun n => String.eqb (ntype n) "Clip") ns)) cv_import =
    Some [["maxpool2d1_out1"; ""; "constant7_out1"]] /\
  option_map (fun x => let '(ns, ins, outs, store) := x in map aty outs) cv_import = Some [t4; default_ty].
Proof.
  split; [|split; [|split]; vm_compute; reflexivity].
  apply legal_check_ok; [|vm_compute; reflexivity]. apply Forall_forall. unfold cv_graph. cbn [pg_nodes].
  repeat constructor; try (cbn; intuition discriminate); discriminate.
Qed.

(** The declared type of an output is looked up under its original name in a
    list of sanitised names: if the two differ it is lost. *)
Theorem C11_declared_type_refuted : exists g ns ins outs store x t,
  legal_graph g /\ import cv_tinfo (fun _ => []) [] [] g = Some (ns, ins, outs, store) /\
  pg_out g = [(x, Some t)] /\ t <> default_ty /\ map aty outs = [default_ty].
Proof.
  exists (mkG [("x", Some t4)] [("/z", Some t4)] [] [] [mkP "Relu" ["x"] ["/z"] []]). do 4 eexists. exists "/z", t4.
  split.
  { apply legal_check_ok; [|vm_compute; reflexivity]. apply Forall_forall. cbn [pg_nodes].
    repeat constructor; try (cbn; intuition discriminate); discriminate. }
  split; [vm_compute; reflexivity|]. split; [reflexivity|]. split; [discriminate|]. reflexivity.
Qed.
Print Assumptions C11_declared_type_refuted.
