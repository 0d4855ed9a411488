(** Model of the conversion of an ONNX graph into raw nodes:
    crates/onnx-ir/src/graph_state.rs and phases/node_conversion.rs. *)
From Verif Require Import IR_Model Names_Model Sanitize_Model.

(** proto_conversion.rs:48-102 [sanitize_name], on strings (ASCII: a byte is a
    character). *)
Definition san (s : string) : string :=
  string_of_list_ascii (map ascii_of_N (sanitize_name (map N_of_ascii (list_ascii_of_string s)))).

(** [NodeProto]: the operator, the names of inputs and outputs ("" where one is
    omitted) and the attributes, in the order of their keys.  Graph attributes
    are left out (the conversion of control flow nodes is not modelled here,
    see OuterRefs_Model.v). *)
Record pnode := mkP {
  p_op : string;
  p_in : list string;
  p_out : list string;
  p_attrs : list (string * attr)
}.

(** [GraphProto]: a [ValueInfoProto] is its name with the type it converts to
    (proto_conversion.rs:870-920), [None] if the conversion fails; an
    initializer is its name with its tensor. *)
Record pgraph := mkG {
  pg_in : list (string * option argty);
  pg_out : list (string * option argty);
  pg_init : list (string * N);
  pg_vinfo : list (string * option argty);
  pg_nodes : list pnode
}.

(** graph_state.rs:80-112 [GraphState].  The tensor store is the list of what
    was stored, a data id its position.  The counters stand for the name
    registry of a subgraph and for the local counters of the root graph
    (node_conversion.rs:42-64), which work alike. *)
Record gstate := mkS {
  g_nodes : list rnode;
  g_inputs : list arg;
  g_outputs : list arg;
  g_inmap : smap nat;
  g_outmap : smap (nat * nat);
  g_store : list attr;
  g_cmap : smap N;
  g_vinfo : smap argty;
  g_outer : smap arg;
  g_count : registry
}.

(** ir/argument.rs:160-168, 234-238: the default type. *)
Definition default_ty : argty := TensorT (mkTT F32 0 None).

(** ir/argument.rs:328-348 [Argument::new], [from_name]. *)
Definition from_name (s : string) : arg :=
  mkArg s default_ty (if String.eqb s "" then VOptional else VDynamic).

Section Conversion.
  (** Element type and shape of a tensor payload. *)
  Variable tinfo : N -> dtype * list N.
  (** The inputs which [lift_constants] of the processor of a node turns into
      embedded values; every processor only calls [to_static] on inputs. *)
  Variable lift : rnode -> list nat.

  (** proto_conversion.rs:137-160, 292-313; node_conversion.rs:247-256: the type
      of constant data. *)
  Definition data_ty (d : dtype) (shape : list N) : argty :=
    match shape with
    | [] => ScalarNative d
    | _ => TensorT (mkTT d (N.of_nat (length shape)) (Some (map Some shape)))
    end.

  (** node_conversion.rs:231-238: the data of a Constant attribute. *)
  Definition const_ty (a : attr) : option argty :=
    match a with
    | ATensor p => Some (data_ty (fst (tinfo p)) (snd (tinfo p)))
    | AFloat _ => Some (data_ty F32 [])
    | AFloats l => Some (data_ty F32 [N.of_nat (length l)])
    | AInt _ => Some (data_ty I64 [])
    | AInts l => Some (data_ty I64 [N.of_nat (length l)])
    | _ => None
    end.

  (** graph_state.rs:523-546 [create_constant_node]. *)
  Definition create_constant_node (name out : string) (ty : argty) (id : N) : rnode :=
    mkNode "Constant" name [mkArg "" ty (VStatic id)] [mkArg out ty VConstant] [].

  (** graph_state.rs:554-592 [process_initializers].  For the root graph the
      names are constant1, constant2, ...: what the counters give when they
      start empty. *)
  Fixpoint process_initializers (r : registry) (store : list attr) (l : list (string * N))
      : registry * list attr * list rnode * smap N :=
    match l with
    | [] => (r, store, [], [])
    | (_, p) :: l' =>
        let id := N.of_nat (length store) in
        let '(r1, name) := generate_node_name r "Constant" in
        let out := (name ++ "_out1")%string in
        let '(r2, store2, nodes, cm) := process_initializers r1 (store ++ [ATensor p]) l' in
        (r2, store2, create_constant_node name out (data_ty (fst (tinfo p)) (snd (tinfo p))) id :: nodes,
         cm ++ [(out, id)])
    end.

  (** graph_state.rs:174-182. *)
  Fixpoint init_outmap (i : nat) (l : list (string * N)) (m : smap (nat * nat)) : smap (nat * nat) :=
    match l with
    | [] => m
    | (x, _) :: l' =>
        let m1 := sput m x (i, 0) in
        let m2 := if String.eqb (san x) x then m1 else sput m1 (san x) (i, 0) in
        init_outmap (S i) l' m2
    end.

  (** graph_state.rs:184-189. *)
  Fixpoint init_vinfo (l : list (string * option argty)) (m : smap argty) : smap argty :=
    match l with
    | [] => m
    | (x, Some t) :: l' => init_vinfo l' (sput m x t)
    | (x, None) :: l' => init_vinfo l' m
    end.

  (** graph_state.rs:191-203. *)
  Definition graph_output (x : string * option argty) : arg :=
    match snd x with
    | Some t => mkArg (san (fst x)) t VDynamic
    | None => from_name (san (fst x))
    end.

  (** graph_state.rs:227-266. *)
  Definition graph_input (outer : smap arg) (x : string * option argty) : arg :=
    match snd x with
    | Some t => mkArg (san (fst x)) t VDynamic
    | None =>
        match sget outer (san (fst x)) with
        | Some a => mkArg (san (fst x)) (aty a) (asrc a)
        | None =>
            match sget outer (fst x) with
            | Some a => mkArg (san (fst x)) (aty a) (asrc a)
            | None => from_name (san (fst x))
            end
        end
    end.

  (** graph_state.rs:205-270: inputs that are initializers are skipped. *)
  Fixpoint init_inputs (outer : smap arg) (om : smap (nat * nat)) (l : list (string * option argty))
      (ins : list arg) (m : smap nat) : list arg * smap nat :=
    match l with
    | [] => (ins, m)
    | x :: l' =>
        match sget om (fst x) with
        | Some _ => init_inputs outer om l' ins m
        | None =>
            let m1 := sput m (fst x) (length ins) in
            let m2 := if String.eqb (san (fst x)) (fst x) then m1 else sput m1 (san (fst x)) (length ins) in
            init_inputs outer om l' (ins ++ [graph_input outer x]) m2
        end
    end.

  (** graph_state.rs:152-287 [new_with_registry_and_outer_scope]. *)
  Definition new_state (outer : smap arg) (r : registry) (g : pgraph) : gstate :=
    let '(r1, store, nodes, cm) := process_initializers r [] (pg_init g) in
    let om := init_outmap 0 (pg_init g) [] in
    let '(ins, im) := init_inputs outer om (pg_in g) [] [] in
    mkS nodes ins (map graph_output (pg_out g)) im om store cm (init_vinfo (pg_vinfo g) []) outer r1.

  (** Reading an entry of the output map. *)
  Definition node_output (s : gstate) (ij : nat * nat) : option arg :=
    match nth_error (g_nodes s) (fst ij) with
    | Some n => nth_error (noutputs n) (snd ij)
    | None => None
    end.

  (** An argument of the outer scope (graph_state.rs:313-347). *)
  Definition outer_ref (s : string) (a : arg) : arg :=
    if is_constant a then a else mkArg s (aty a) (asrc a).

  (** graph_state.rs:295-352 [init_in].  [None]: an index out of bounds. *)
  Definition init_in (s : gstate) (x : string) : option arg :=
    match sget (g_inmap s) x with
    | Some i => nth_error (g_inputs s) i
    | None =>
        match sget (g_outmap s) (san x) with
        | Some ij => node_output s ij
        | None =>
            match sget (g_outmap s) x with
            | Some ij => node_output s ij
            | None =>
                match sget (g_outer s) (san x) with
                | Some a => Some (outer_ref (san x) a)
                | None =>
                    match sget (g_outer s) x with
                    | Some a => Some (outer_ref (san x) a)
                    | None => Some (from_name (san x))
                    end
                end
            end
        end
    end.

  Fixpoint all_some {A} (l : list (option A)) : option (list A) :=
    match l with
    | [] => Some []
    | Some x :: l' => option_map (cons x) (all_some l')
    | None :: _ => None
    end.

  (** ir/node.rs:81-84: parsing of the operator name ignores case. *)
  Definition parse_type (op : string) : option string :=
    find (fun t => String.eqb (lower t) (lower op)) node_types.

  (** proto_conversion.rs:592-607: an output of a node. *)
  Definition proto_output (s : gstate) (x : string) : arg :=
    let a := from_name (san x) in
    match find (fun o => String.eqb (aname o) x) (g_outputs s) with
    | Some o => mkArg (aname a) (aty o) (asrc a)
    | None =>
        match sget (g_vinfo s) x with
        | Some t => mkArg (aname a) t (asrc a)
        | None => a
        end
    end.

  (** proto_conversion.rs:583-616 [convert_node_proto]; the name of the node is
      replaced before it is used (node_conversion.rs:173). *)
  Definition convert_node_proto (s : gstate) (p : pnode) : option rnode :=
    match parse_type (p_op p), all_some (map (init_in s) (p_in p)) with
    | Some t, Some ins => Some (mkNode t "" ins (map (proto_output s) (p_out p)) (p_attrs p))
    | _, _ => None
    end.

  Definition sremove {A} (m : smap A) (k : string) : smap A :=
    filter (fun kv => negb (String.eqb (fst kv) k)) m.

  Definition set_store (s : gstate) (l : list attr) : gstate :=
    mkS (g_nodes s) (g_inputs s) (g_outputs s) (g_inmap s) (g_outmap s) l (g_cmap s) (g_vinfo s) (g_outer s) (g_count s).
  Definition set_count (s : gstate) (r : registry) : gstate :=
    mkS (g_nodes s) (g_inputs s) (g_outputs s) (g_inmap s) (g_outmap s) (g_store s) (g_cmap s) (g_vinfo s) (g_outer s) r.

  (** node_conversion.rs:218-226. *)
  Definition const_keys : list string :=
    ["value"; "value_float"; "value_floats"; "value_int"; "value_ints"; "value_string"; "value_strings"]%string.

  (** node_conversion.rs:217-279 [extract_constant_from_attributes]. *)
  Definition extract_constant (s : gstate) (n : rnode) : gstate * rnode :=
    match find (fun k => match sget (nattrs n) k with Some _ => true | None => false end) const_keys with
    | None => (s, n)
    | Some k =>
        match sget (nattrs n) k with
        | None => (s, n)
        | Some a =>
            match const_ty a with
            | None => (s, n)
            | Some ty =>
                let id := N.of_nat (length (g_store s)) in
                let outs := match noutputs n with
                            | [] => []
                            | o :: r => mkArg (aname o) ty VConstant :: r
                            end in
                (set_store s (g_store s ++ [a]),
                 mkNode (ntype n) (nname n) (ninputs n ++ [mkArg "" ty (VStatic id)]) outs (sremove (nattrs n) k))
            end
        end
    end.

  (** node_conversion.rs:358-377 [remap_node_with_kernel_shape]: the number of
      spatial dimensions; [None]: a panic ([rank - 2] underflows, or wraps to a
      number no variant exists for). *)
  Definition spatial_dims (n : rnode) : option N :=
    match get_attr n "kernel_shape" with
    | Some (AInts l) => Some (N.of_nat (length l))
    | Some _ => None
    | None =>
        if (String.eqb (ntype n) "Conv" || String.eqb (ntype n) "ConvTranspose")%bool then
          match nth_error (ninputs n) 1 with
          | Some a => match aty a with
                      | TensorT t => if (2 <=? tt_rank t)%N then Some (tt_rank t - 2)%N else None
                      | _ => None
                      end
          | None => None
          end
        else None
    end.

  Definition set_type (n : rnode) (t : string) : rnode :=
    mkNode t (nname n) (ninputs n) (noutputs n) (nattrs n).

  (** The variants with a number of dimensions (node_conversion.rs:382-410). *)
  Definition by_dims (base : string) (upto : N) (k : N) : option string :=
    if ((1 <=? k) && (k <=? upto))%N%bool then Some (base ++ dec k ++ "d")%string else None.

  (** node_conversion.rs:380-412 [remap_node_type]. *)
  Definition remap_node_type (n : rnode) : option rnode :=
    let remap upto :=
      match spatial_dims n with
      | Some k => option_map (set_type n) (by_dims (ntype n) upto k)
      | None => None
      end in
    if String.eqb (ntype n) "Conv" then remap 3%N
    else if String.eqb (ntype n) "ConvTranspose" then remap 3%N
    else if String.eqb (ntype n) "MaxPool" then remap 2%N
    else if String.eqb (ntype n) "AveragePool" then remap 2%N
    else Some n.

  (** node_conversion.rs:330-355 [rename_node]. *)
  Definition rename_node (s : gstate) (n : rnode) : gstate * rnode :=
    let '(r, name) := generate_node_name (g_count s) (ntype n) in
    (set_count s r, mkNode (ntype n) name (ninputs n) (noutputs n) (nattrs n)).

  (** graph_state.rs:420-424 [has_value]. *)
  Definition has_value (s : gstate) (x : string) : bool :=
    existsb (fun n => String.eqb (ntype n) "Constant" && existsb (fun o => String.eqb (aname o) x) (noutputs n))%bool
      (g_nodes s).

  (** The bit pattern of 1.0. *)
  Definition f32_one : N := 1065353216.

  Definition is_int (a : option attr) (z : Z) : bool :=
    match a with Some (AInt y) => Z.eqb y z | _ => false end.
  Definition is_one (a : option attr) : bool :=
    match a with Some (AFloat b) => N.eqb b f32_one | _ => false end.

  (** node_conversion.rs:435-487 [convert_gemm_to_linear]; [transpose_weight]
      is put last, which is its place in the order of keys: no other key is left
      on a legal Gemm. *)
  Definition convert_gemm_to_linear (n : rnode) : option rnode :=
    match noutputs n with
    | [_] =>
        if is_int (get_attr n "transA") 1 then Some n
        else if (is_one (get_attr n "alpha") && is_one (get_attr n "beta") && is_int (get_attr n "transB") 1)%bool
        then Some (mkNode "Linear" (nname n) (ninputs n) (noutputs n)
               (sremove (sremove (sremove (sremove (sremove (nattrs n) "alpha") "beta") "transA") "transB") "transpose_weight"
                  ++ [("transpose_weight"%string, AInt 1)]))
        else Some n
    | _ => None
    end.

  (** node_conversion.rs:545-560 [is_add_node_with_bias]. *)
  Definition is_add_with_bias (s : gstate) (peek : rnode) (out : string) : bool :=
    match ninputs peek with
    | [a; b] =>
        String.eqb (ntype peek) "Add" &&
        ((String.eqb (aname a) out && has_value s (aname b)) || (String.eqb (aname b) out && has_value s (aname a)))
    | _ => false
    end%bool.

  (** node_conversion.rs:563-576 [convert_and_remove_add_node]. *)
  Definition add_bias (peek : rnode) (n : rnode) : option rnode :=
    match ninputs peek, noutputs peek, noutputs n with
    | [a; b], o :: _, x :: r =>
        let bias := if String.eqb (aname a) (aname x) then b else a in
        Some (mkNode (ntype n) (nname n) (ninputs n ++ [bias]) (mkArg (aname o) (aty x) (asrc x) :: r) (nattrs n))
    | _, _, _ => None
    end.

  (** node_conversion.rs:490-542 [convert_matmul_to_linear]; the boolean tells
      whether the next node was swallowed. *)
  Definition convert_matmul_to_linear (s : gstate) (n : rnode) (rest : list pnode) : option (rnode * bool) :=
    match ninputs n with
    | [_; w] =>
        if negb (has_value s (aname w)) then Some (n, false)
        else match aty w with
        | TensorT t =>
            if negb (tt_rank t =? 2)%N then Some (n, false)
            else
              let n1 := set_type n "Linear" in
              match rest with
              | [] => Some (n1, false)
              | q :: _ =>
                  match convert_node_proto s q with
                  | None => None
                  | Some peek =>
                      match noutputs n1 with
                      | [] => if (String.eqb (ntype peek) "Add" && (length (ninputs peek) =? 2)%nat)%bool
                              then None else Some (n1, false)
                      | x :: _ =>
                          if is_add_with_bias s peek (aname x)
                          then option_map (fun n2 => (n2, true)) (add_bias peek n1)
                          else Some (n1, false)
                      end
                  end
              end
        | _ => Some (n, false)
        end
    | _ => None
    end.

  (** node_conversion.rs:415-428 [coalesce]. *)
  Definition coalesce (s : gstate) (n : rnode) (rest : list pnode) : option (rnode * bool) :=
    if String.eqb (ntype n) "Gemm" then option_map (fun m => (m, false)) (convert_gemm_to_linear n)
    else if String.eqb (ntype n) "MatMul" then convert_matmul_to_linear s n rest
    else Some (n, false).

  (** ir/argument.rs:430-459 [to_static]. *)
  Definition to_static (s : gstate) (a : arg) : option arg :=
    if is_constant a then
      match sget (g_cmap s) (aname a) with
      | Some id => Some (mkArg "" (aty a) (VStatic id))
      | None => None
      end
    else None.

  Fixpoint lift_at (s : gstate) (l : list arg) (i : nat) : option (list arg) :=
    match l, i with
    | [], _ => Some []
    | a :: r, O => option_map (fun b => b :: r) (to_static s a)
    | a :: r, S j => option_map (cons a) (lift_at s r j)
    end.
  Fixpoint lift_all (s : gstate) (l : list arg) (is : list nat) : option (list arg) :=
    match is with
    | [] => Some l
    | i :: is' => match lift_at s l i with Some l' => lift_all s l' is' | None => None end
    end.

  (** node_conversion.rs:190-200: [lift_constants], a failure is a panic. *)
  Definition lift_node (s : gstate) (n : rnode) : option rnode :=
    option_map (fun l => mkNode (ntype n) (nname n) l (noutputs n) (nattrs n)) (lift_all s (ninputs n) (lift n)).

  (** graph_state.rs:358-388 [add_node]. *)
  Fixpoint add_outputs (idx : nat) (name : string) (k : nat) (cid : option N) (outs : list arg)
      (om : smap (nat * nat)) (cm : smap N) : list arg * smap (nat * nat) * smap N :=
    match outs with
    | [] => ([], om, cm)
    | o :: r =>
        let x := output_name name (N.of_nat k + 1) in
        let cm1 := match cid with Some id => sput cm x id | None => cm end in
        let '(outs', om', cm') := add_outputs idx name (S k) cid r (sput om (aname o) (idx, k)) cm1 in
        (mkArg x (aty o) (asrc o) :: outs', om', cm')
    end.
  Definition constant_data_id (n : rnode) : option N :=
    if String.eqb (ntype n) "Constant" then
      match ninputs n with
      | a :: _ => match asrc a with VStatic id => Some id | _ => None end
      | [] => None
      end
    else None.
  Definition add_node (s : gstate) (n : rnode) : gstate :=
    let '(outs, om, cm) :=
      add_outputs (length (g_nodes s)) (nname n) 0 (constant_data_id n) (noutputs n) (g_outmap s) (g_cmap s) in
    mkS (g_nodes s ++ [mkNode (ntype n) (nname n) (ninputs n) outs (nattrs n)])
      (g_inputs s) (g_outputs s) (g_inmap s) om (g_store s) cm (g_vinfo s) (g_outer s) (g_count s).

  (** node_conversion.rs:68-206: one round of the loop, up to [add_node]; the
      boolean tells whether the next node was swallowed.  A control flow node
      is not modelled and counts as a failure. *)
  Definition convert_step (s : gstate) (p : pnode) (rest : list pnode) : option (gstate * bool) :=
    match convert_node_proto s p with
    | None => None
    | Some n0 =>
        if mem_str (ntype n0) ["If"; "Loop"; "Scan"]%string then None else
        let '(s1, n1) := if String.eqb (ntype n0) "Constant" then extract_constant s n0 else (s, n0) in
        match remap_node_type n1 with
        | None => None
        | Some n2 =>
            let '(s3, n3) := rename_node s1 n2 in
            match coalesce s3 n3 rest with
            | None => None
            | Some (n4, eaten) =>
                let '(s5, n5) := if String.eqb (ntype n4) (ntype n3) then (s3, n4) else rename_node s3 n4 in
                match lift_node s5 n5 with
                | None => None
                | Some n6 => Some (add_node s5 n6, eaten)
                end
            end
        end
    end.

  (** node_conversion.rs:37-214 [convert_nodes_impl]. *)
  Fixpoint convert_nodes (s : gstate) (l : list pnode) {struct l} : option gstate :=
    match l with
    | [] => Some s
    | p :: rest =>
        match convert_step s p rest with
        | None => None
        | Some (s', eaten) =>
            match rest with
            | [] => Some s'
            | _ :: rest' => if eaten then convert_nodes s' rest' else convert_nodes s' rest
            end
        end
    end.

  (** graph_state.rs:401-417 [consume]: the outputs. *)
  Definition find_output (s : gstate) (x : arg) : option (option arg) :=
    match sget (g_outmap s) (aname x) with
    | Some ij => option_map Some (node_output s ij)
    | None =>
        match sget (g_inmap s) (aname x) with
        | Some i => option_map Some (nth_error (g_inputs s) i)
        | None => Some None
        end
    end.
  Fixpoint keep_some {A} (l : list (option A)) : list A :=
    match l with
    | [] => []
    | Some x :: r => x :: keep_some r
    | None :: r => keep_some r
    end.
  Definition consume (s : gstate) : option (list rnode * list arg * list arg) :=
    match all_some (map (find_output s) (g_outputs s)) with
    | Some l => Some (g_nodes s, g_inputs s, keep_some l)
    | None => None
    end.

  (** The whole conversion of a graph: raw nodes, inputs, outputs, and the
      stored constants. *)
  Definition import (outer : smap arg) (r : registry) (g : pgraph)
      : option (list rnode * list arg * list arg * list attr) :=
    match convert_nodes (new_state outer r g) (pg_nodes g) with
    | None => None
    | Some s =>
        match consume s with
        | Some (ns, ins, outs) => Some (ns, ins, outs, g_store s)
        | None => None
        end
    end.
End Conversion.
