(** C13, C14, C48: Gemm and MatMul nodes that become linear layers. *)
From Verif Require Import IR_Model IR_Spec Tensor_Spec Shapes_Spec Names_Model Import_Model Import_Spec Import_Proofs Import_Props
  Linear_Model Linear_Spec Linear_Proofs.
Open Scope string_scope.
Open Scope list_scope.
Open Scope N_scope.

(** ** C13 *)

(** A Gemm node [n] is turned into a linear layer, with weight and bias loaded
    into [L].  Then for every matrix [A] the layer gives what the Gemm of the
    attributes of [n] gives on [A], the weight and the bias (or both have no
    result).  For all element types, additions and products with 1 * x = x.
    Missing: layers that cannot be loaded although the Gemm has a result, and
    values of transA other than 0 and 1: see the refutations. *)
Theorem C13_equal_partial : forall T (add mul : T -> T -> T) dot (of_f32 : N -> T) value n m L,
  (forall x, mul (of_f32 f32_one) x = x) ->
  ntype n = "Gemm" -> convert_gemm_to_linear n = Some m -> ntype m = "Linear" ->
  (forall z, sget (nattrs n) "transA" = Some (AInt z) -> z = 0%Z \/ z = 1%Z) ->
  linear_layer value m = Some L ->
  exists x w rest W, ninputs n = x :: w :: rest /\ value w = Some W /\
    forall A, length (tshape A) = 2%nat ->
      layer_forward add dot L A =
      gemm_of add mul dot of_f32 (nattrs n) A W (match rest with b :: _ => value b | [] => None end).
Proof.
  intros T add mul dot of_f32 value n m L H1 Ht Hc Hm Hta HL.
  apply (gemm_equal add mul dot of_f32 value n m L); auto. rewrite Ht. discriminate.
Qed.
Print Assumptions C13_equal_partial.

(** A Gemm that is not converted is left as it is. *)
Theorem C13_kept : forall n m, ntype n = "Gemm" -> convert_gemm_to_linear n = Some m -> ntype m <> "Linear" -> m = n.
Proof. intros n m _ Hc Hm. destruct (gemm_conv n m Hc) as [->|[H _]]; [reflexivity|contradiction]. Qed.
Print Assumptions C13_kept.

(** The converted node has the same name, inputs and outputs, and its layer
    loads whenever the weight is a constant matrix of known shape [n, k] and
    the bias, if there is one, a constant vector of [n] elements. *)
Theorem C13_loads : forall T (value : arg -> option (tensor T)) n m x w rest W d s0 s1,
  ntype n = "Gemm" -> convert_gemm_to_linear n = Some m -> ntype m = "Linear" ->
  ninputs n = x :: w :: rest -> aty w = TensorT (mkTT d 2 (Some [Some s0; Some s1])) ->
  value w = Some W -> tshape W = [s0; s1] ->
  match rest with
  | [] => True
  | b :: _ => exists B t, aty b = TensorT t /\ value b = Some B /\ tshape B = [s0]
  end ->
  nname m = nname n /\ ninputs m = ninputs n /\ noutputs m = noutputs n /\ exists L, linear_layer value m = Some L.
Proof.
  intros T value n m x w rest W d s0 s1 Ht Hc Hm Hi Hw Hv Hs Hr.
  destruct (gemm_conv n m Hc) as [->|(_ & H1 & H2 & H3 & H4 & _)]; [congruence|].
  repeat (split; [assumption|]). apply (layer_loads value m x w rest W d s0 s1); auto; [congruence|]. rewrite H4. exact Hr.
Qed.
Print Assumptions C13_loads.

(** Integers as elements. *)
Definition zdot (a b : list Z) : Z := fold_left Z.add (map (fun p => (fst p * snd p)%Z) (combine a b)) 0%Z.
Definition zf (b : N) : Z := if b =? f32_one then 1%Z else 5%Z.
Lemma zf_one : forall x, (zf f32_one * x)%Z = x.
Proof. intros x. unfold zf. rewrite N.eqb_refl. lia. Qed.

Definition tf2 (a b : N) : argty := TensorT (mkTT F32 2 (Some [Some a; Some b])).
Definition tf1 (a : N) : argty := TensorT (mkTT F32 1 (Some [Some a])).
Definition gemm_node (attrs : list (string * attr)) (bias : argty) : rnode :=
  mkNode "Gemm" "gemm1" [mkArg "x" (tf2 2 3) VDynamic; mkArg "w" (tf2 2 3) VConstant; mkArg "c" bias VConstant]
    [mkArg "y" (tf2 2 2) VDynamic] attrs.
Definition unit_attrs : list (string * attr) :=
  [("alpha", AFloat f32_one); ("beta", AFloat f32_one); ("transA", AInt 0); ("transB", AInt 1)].
Definition ex_w : tensor Z := mkT [2; 3] [1; 2; 3; 4; 5; 6]%Z.
Definition ex_x : tensor Z := mkT [2; 3] [1; 0; 2; 0; 1; 0]%Z.
Definition ex_value (c : option (tensor Z)) (a : arg) : option (tensor Z) :=
  if String.eqb (aname a) "w" then Some ex_w else if String.eqb (aname a) "c" then c else None.
(** The layer a Gemm becomes, applied to [ex_x]. *)
Definition as_layer (n : rnode) (c : option (tensor Z)) (x : tensor Z) : option (tensor Z) :=
  match convert_gemm_to_linear n with
  | Some m => match linear_layer (ex_value c) m with Some L => layer_forward Z.add zdot L x | None => None end
  | None => None
  end.
Definition as_gemm (n : rnode) (c : option (tensor Z)) (x : tensor Z) : option (tensor Z) :=
  gemm_of Z.add Z.mul zdot zf (nattrs n) x ex_w c.

Example C13_ex :
  as_layer (gemm_node unit_attrs (tf1 2)) (Some (mkT [2] [10; 20]%Z)) ex_x = Some (mkT [2; 2] [17; 36; 12; 25]%Z) /\
  as_gemm (gemm_node unit_attrs (tf1 2)) (Some (mkT [2] [10; 20]%Z)) ex_x = Some (mkT [2; 2] [17; 36; 12; 25]%Z) /\
  option_map ntype (convert_gemm_to_linear (gemm_node [("transB", AInt 1)] (tf1 2))) = Some "Gemm" /\
  option_map ntype (convert_gemm_to_linear (gemm_node (gemm_attrs (Some 0) (Some f32_one) None (Some 1%Z)) (tf1 2))) = Some "Gemm".
Proof. repeat split; vm_compute; reflexivity. Qed.

(** A bias that ONNX broadcasts, of one element or one row per row of the
    result, is accepted, but the layer cannot be loaded. *)
Theorem C13_bias_refuted : exists n m c c', ntype n = "Gemm" /\ convert_gemm_to_linear n = Some m /\ ntype m = "Linear" /\
  tshape c = [1] /\ as_gemm n (Some c) ex_x <> None /\ linear_layer (ex_value (Some c)) m = None /\
  tshape c' = [2; 1] /\ as_gemm n (Some c') ex_x <> None /\ linear_layer (ex_value (Some c')) m = None.
Proof.
  exists (gemm_node unit_attrs (tf1 1)). eexists. exists (mkT [1] [10]%Z), (mkT [2; 1] [10; 20]%Z).
  split; [reflexivity|]. split; [vm_compute; reflexivity|]. split; [reflexivity|].
  repeat split; try (vm_compute; discriminate); vm_compute; reflexivity.
Qed.
Print Assumptions C13_bias_refuted.

(** transA = 2 means "transpose" for ONNX (and for the Gemm nodes that are
    kept), but the layer does not transpose. *)
Definition trans_node : rnode :=
  mkNode "Gemm" "gemm1" [mkArg "x" (tf2 3 3) VDynamic; mkArg "w" (tf2 2 3) VConstant]
    [mkArg "y" (tf2 3 2) VDynamic] (gemm_attrs (Some f32_one) (Some f32_one) (Some 2%Z) (Some 1%Z)).
Theorem C13_transA_refuted : exists n x r1 r2, ntype n = "Gemm" /\
  as_layer n None x = Some r1 /\ as_gemm n None x = Some r2 /\ r1 <> r2.
Proof.
  exists trans_node, (mkT [3; 3] [1; 0; 0; 1; 0; 0; 0; 0; 0]%Z).
  do 2 eexists. split; [reflexivity|]. split; [vm_compute; reflexivity|]. split; [vm_compute; reflexivity|].
  vm_compute. discriminate.
Qed.
Print Assumptions C13_transA_refuted.

(** Whether the weight is a constant is not looked at: for any inputs and
    values, a Gemm with the right attributes is converted, and if the weight
    has no value no layer can be built. *)
Theorem C13_dynamic_refuted : forall T (value : arg -> option (tensor T)) n x w rest o,
  ntype n = "Gemm" -> nattrs n = unit_attrs -> ninputs n = x :: w :: rest -> noutputs n = [o] -> value w = None ->
  exists m, convert_gemm_to_linear n = Some m /\ ntype m = "Linear" /\ linear_layer value m = None.
Proof.
  intros T value n x w rest o Ht Ha Hi Ho Hv. unfold convert_gemm_to_linear, get_attr. rewrite Ho, Ha. cbn.
  eexists. split; [reflexivity|]. split; [reflexivity|]. unfold linear_layer, snapshot. cbn [ninputs]. rewrite Hi, Hv.
  destruct (static_shape_known (aty w)) as [[|s0 [|s1 r]]|]; try reflexivity. destruct (aty w); reflexivity.
Qed.
Print Assumptions C13_dynamic_refuted.

(** ** C14 *)

(** In an ONNX graph where every name is defined before it is read, every name
    an imported node reads is the name of an input of the imported graph, of a
    value of the enclosing graph, or of an output of an earlier imported node;
    and every graph output is there and defined.
    Missing: graphs excluded by [legal_graph], in particular those in which the
    product that goes into the Add is used elsewhere: see the refutation. *)
Theorem C14_reads_partial : forall tinfo lift outer r g ns ins outs store, legal_graph g ->
  (forall k a, sget outer k = Some a -> asrc a = VDynamic) -> sget outer "" = None ->
  closed (in_names_of g ++ init_names_of g ++ map fst outer) (pg_nodes g) ->
  import tinfo lift outer r g = Some (ns, ins, outs, store) ->
  closed_nodes (map aname ins ++ map san (map fst outer)) ns /\
  length outs = length (pg_out g) /\
  incl (reads outs) (flat_map (fun n => map aname (noutputs n)) ns ++ map aname ins ++ map san (map fst outer)).
Proof. exact import_closed. Qed.
Print Assumptions C14_reads_partial.

Lemma closed_ex : closed (in_names_of ex_graph ++ init_names_of ex_graph) (pg_nodes ex_graph).
Proof. cbn. repeat split; intros x H; cbn in *; intuition subst; auto 20. Qed.
Example C14_ex : legal_graph ex_graph /\ closed (in_names_of ex_graph ++ init_names_of ex_graph ++ []) (pg_nodes ex_graph) /\
  ex_import <> None /\ In "Linear" (map ntype ex_nodes) /\
  map (fun n => (nname n, reads (ninputs n))) (skipn 5 ex_nodes) =
    [("linear1", ["in_x"]); ("linear2", ["linear1_out1"]); ("clip1", ["linear2_out1"]); ("constant6", []);
     ("add1", ["clip1_out1"; "constant6_out1"])].
Proof.
  split; [exact ex_legal|]. split; [rewrite app_nil_r; exact closed_ex|].
  split; [vm_compute; discriminate|]. split; [vm_compute; tauto|vm_compute; reflexivity].
Qed.

(** The product is also read by a Relu and is a graph output: after the import
    nothing defines the name the Relu reads, and the graph output is gone. *)
Definition used_graph : pgraph := mkG [("x", Some (t2 2 4))] [("y", None); ("m", None)] [("w2", 3); ("b2", 4)] []
  [mkP "MatMul" ["x"; "w2"] ["m"] []; mkP "Add" ["m"; "b2"] ["y"] []; mkP "Relu" ["m"] ["z"] []].
Theorem C14_reads_refuted : exists g ns ins outs store,
  (forall p, In p (pg_nodes g) -> legal_node p) /\
  NoDup (in_names_of g ++ init_names_of g ++ produced (pg_nodes g)) /\
  closed (in_names_of g ++ init_names_of g) (pg_nodes g) /\
  import ex_tinfo (fun _ => []) [] [] g = Some (ns, ins, outs, store) /\
  (exists n, In n ns /\ In "m" (reads (ninputs n))) /\
  ~ In "m" (map aname ins ++ flat_map (fun n => map aname (noutputs n)) ns) /\
  length (pg_out g) = 2%nat /\ length outs = 1%nat.
Proof.
  exists used_graph. do 4 eexists. split.
  { apply Forall_forall. unfold used_graph. cbn [pg_nodes].
    repeat constructor; try (cbn; intuition discriminate); try discriminate; try reflexivity;
    try (eexists; split; [reflexivity|discriminate]); cbn. }
  split; [apply distinct_ok; reflexivity|].
  split; [cbn; repeat split; intros x H; cbn in *; intuition subst; auto 20|].
  split; [vm_compute; reflexivity|]. split.
  - eexists. split; [right; right; right; left; reflexivity|]. vm_compute. tauto.
  - split; [vm_compute; intuition discriminate|]. split; reflexivity.
Qed.
Print Assumptions C14_reads_refuted.

(** The layer a MatMul becomes, alone or with the Add after it, gives the
    product, or the sum of product and bias, for every input of any rank.  For
    all element types with a commutative addition. *)
Theorem C14_equal : forall T (add : T -> T -> T) dot value s n rest m eaten L,
  (forall x y, add x y = add y x) ->
  ntype n = "MatMul" -> nattrs n = [] ->
  convert_matmul_to_linear s n rest = Some (m, eaten) -> ntype m = "Linear" -> linear_layer value m = Some L ->
  exists x w W, ninputs n = [x; w] /\ value w = Some W /\
    if eaten then
      exists q rest' peek a b c C o,
        rest = q :: rest' /\ convert_node_proto s q = Some peek /\ ntype peek = "Add" /\
        ninputs peek = [a; b] /\ map aname (noutputs m) = map aname (firstn 1 (noutputs peek)) ++ map aname (tl (noutputs n)) /\
        nth_error (noutputs n) 0 = Some o /\ value c = Some C /\
        (aname a = aname o /\ c = b /\
           (forall X, layer_forward add dot L X =
              match onnx_matmul dot X W with Some M => elementwise add M C | None => None end) \/
         aname b = aname o /\ c = a /\
           (forall X, layer_forward add dot L X =
              match onnx_matmul dot X W with Some M => elementwise add C M | None => None end))
    else noutputs m = noutputs n /\ forall X, layer_forward add dot L X = onnx_matmul dot X W.
Proof.
  intros T add dot value s n rest m eaten L Hcomm Ht Ha Hc Hm HL.
  apply matmul_equal; auto. rewrite Ht. discriminate.
Qed.
Print Assumptions C14_equal.

(** The weight of a converted MatMul is a constant of this graph, so is the
    bias; the layer loads if the bias is a vector of the right size. *)
Theorem C14_loads : forall T (value : arg -> option (tensor T)) s n rest m eaten x w W d s0 s1,
  ntype n = "MatMul" -> nattrs n = [] ->
  convert_matmul_to_linear s n rest = Some (m, eaten) -> ntype m = "Linear" ->
  ninputs n = [x; w] -> aty w = TensorT (mkTT d 2 (Some [Some s0; Some s1])) ->
  value w = Some W -> tshape W = [s0; s1] ->
  (forall b, nth_error (ninputs m) 2 = Some b -> exists B t, aty b = TensorT t /\ value b = Some B /\ tshape B = [s1]) ->
  has_value s (aname w) = true /\
  (forall b, nth_error (ninputs m) 2 = Some b -> has_value s (aname b) = true) /\
  exists L, linear_layer value m = Some L.
Proof.
  intros T value s n rest m eaten x w W d s0 s1 Ht Ha Hc Hm Hi Hw Hv Hs Hb.
  destruct (matmul_conv s n rest m eaten Hc) as [[-> _]|(_ & _ & Hat & x' & w' & Hi' & Hval & _ & Hcase)]; [congruence|].
  rewrite Hi in Hi'. injection Hi' as <- <-. split; [exact Hval|].
  assert (Htw : transpose_weight m = false) by (unfold transpose_weight, get_attr; rewrite Hat, Ha; reflexivity).
  destruct Hcase as [(_ & Him & _)|(_ & q & rest' & peek & a & b & p & pr & o & r & c & _ & _ & _ & _ & _ & _ & _ & Him & Hc9 & _)].
  - split; [intros b Hn; rewrite Him in Hn; discriminate|].
    apply (layer_loads value m x w [] W d s0 s1); auto.
  - split; [intros b0 Hn; rewrite Him in Hn; injection Hn as <-; exact Hc9|].
    apply (layer_loads value m x w [c] W d s0 s1); auto. rewrite Htw. apply Hb. rewrite Him. reflexivity.
Qed.
Print Assumptions C14_loads.

Definition mm_state : gstate :=
  match convert_nodes ex_tinfo (fun _ => []) (new_state ex_tinfo [] [] used_graph) [] with Some s => s | None => mkS [] [] [] [] [] [] [] [] [] [] end.
Definition mm_node : rnode :=
  match convert_node_proto mm_state (mkP "MatMul" ["x"; "w2"] ["m"] []) with Some n => n | None => mkNode "" "" [] [] [] end.
Definition mm_value (a : arg) : option (tensor Z) :=
  if String.eqb (aname a) "constant1_out1" then Some (mkT [4; 5] (repeat 2%Z 20))
  else if String.eqb (aname a) "constant2_out1" then Some (mkT [5] [1; 2; 3; 4; 5]%Z) else None.
Definition mm_result (q : pnode) (x : tensor Z) : option (bool * option (tensor Z)) :=
  match convert_matmul_to_linear mm_state mm_node [q] with
  | Some (m, eaten) => Some (eaten, match linear_layer mm_value m with Some L => layer_forward Z.add zdot L x | None => None end)
  | None => None
  end.
Example C14_equal_ex : ntype mm_node = "MatMul" /\
  mm_result (mkP "Add" ["b2"; "m"] ["y"] []) (mkT [1; 1; 4] [1; 2; 3; 4]%Z) = Some (true, Some (mkT [1; 1; 5] [21; 22; 23; 24; 25]%Z)) /\
  mm_result (mkP "Add" ["m"; "b2"] ["y"] []) (mkT [4] [1; 2; 3; 4]%Z) = Some (true, Some (mkT [5] [21; 22; 23; 24; 25]%Z)) /\
  mm_result (mkP "Add" ["m"; "x"] ["y"] []) (mkT [4] [1; 2; 3; 4]%Z) = Some (false, Some (mkT [5] [20; 20; 20; 20; 20]%Z)).
Proof. repeat split; vm_compute; reflexivity. Qed.

(** The bias is fused whatever its shape; then the layer cannot be loaded. *)
Definition bad_value (a : arg) : option (tensor Z) :=
  if String.eqb (aname a) "constant1_out1" then Some (mkT [4; 5] (repeat 2%Z 20))
  else if String.eqb (aname a) "constant2_out1" then Some (mkT [2; 1] [1; 2]%Z) else None.
Theorem C14_bias_refuted : exists m M X,
  convert_matmul_to_linear mm_state mm_node [mkP "Add" ["m"; "b2"] ["y"] []] = Some (m, true) /\
  onnx_matmul zdot X (mkT [4; 5] (repeat 2%Z 20)) = Some M /\ elementwise Z.add M (mkT [2; 1] [1; 2]%Z) <> None /\
  linear_layer bad_value m = None.
Proof.
  do 2 eexists. exists (mkT [2; 4] [1; 2; 3; 4; 5; 6; 7; 8]%Z). split; [vm_compute; reflexivity|].
  split; [vm_compute; reflexivity|]. split; [vm_compute; discriminate|vm_compute; reflexivity].
Qed.
Print Assumptions C14_bias_refuted.

(** ** C48 *)

(** The type recorded for the output of a linear layer holds for every result
    of the layer. *)
Theorem C48_shape : forall T (add : T -> T -> T) dot value n L x w rest X Y ty,
  ninputs n = x :: w :: rest -> linear_layer value n = Some L ->
  infer_linear n (option_map tshape (value w)) = Some ty -> fits (aty x) (tshape X) ->
  layer_forward add dot L X = Some Y -> fits ty (tshape Y).
Proof. intros T add dot value n L x w rest X Y ty Hi HL. exact (infer_fits add dot value n L x w rest X Y ty HL Hi). Qed.
Print Assumptions C48_shape.

(** What is recorded: the dimensions of the input but for the last one, which
    is the number of outputs of the weight. *)
Theorem C48_exact : forall n x w rest d r s k W0 W1,
  ninputs n = x :: w :: rest -> aty x = TensorT (mkTT d r (Some (s ++ [k]))) ->
  nattrs n = [] \/ nattrs n = [("transpose_weight", AInt 1)] ->
  infer_linear n (Some [W0; W1]) =
    Some (TensorT (mkTT d r (Some (s ++ [Some (match nattrs n with [] => W1 | _ => W0 end)])))).
Proof.
  intros n x w rest d r s k W0 W1 Hi Hx Ha. unfold infer_linear, transpose_weight, get_attr. rewrite Hi, Hx.
  destruct Ha as [-> | ->]; cbn; rewrite removelast_last; destruct s; reflexivity.
Qed.
Print Assumptions C48_exact.
Example C48_ex : exists L Y ty m,
  convert_gemm_to_linear (gemm_node unit_attrs (tf1 2)) = Some m /\
  linear_layer (ex_value (Some (mkT [2] [10; 20]%Z))) m = Some L /\
  infer_linear m (Some [2; 3]) = Some ty /\ ty = TensorT (mkTT F32 2 (Some [Some 2; Some 2])) /\
  layer_forward Z.add zdot L ex_x = Some Y /\ tshape Y = [2; 2].
Proof.
  do 4 eexists. split; [vm_compute; reflexivity|]. split; [vm_compute; reflexivity|].
  split; [vm_compute; reflexivity|]. split; [reflexivity|]. split; [vm_compute; reflexivity|reflexivity].
Qed.
