(** What it means to run an ONNX graph, and which graphs the importer is
    expected to handle.  Nothing here refers to the importer except the record
    types of the graph and the name function [san]. *)
From Verif Require Import IR_Model IR_Spec Names_Model Import_Model.

Section Onnx.
  Context {V : Type}.
  (** The meaning of an ONNX operator (name in lower case): attributes, number
      of outputs, inputs ([None] where one is omitted), output values. *)
  Variable osem : string -> list (string * attr) -> nat -> list (option V) -> option (list V).
  (** The value denoted by constant data. *)
  Variable cval : attr -> V.

  Notation env := (string -> option V).

  (** An omitted input is written "". *)
  Fixpoint o_inputs (e : env) (l : list string) : option (list (option V)) :=
    match l with
    | [] => Some []
    | x :: r =>
        match (if String.eqb x "" then Some None else option_map Some (e x)), o_inputs e r with
        | Some v, Some vs => Some (v :: vs)
        | _, _ => None
        end
    end.

  Definition o_node (e : env) (p : pnode) : option env :=
    match o_inputs e (p_in p) with
    | None => None
    | Some vs =>
        match osem (lower (p_op p)) (p_attrs p) (length (p_out p)) vs with
        | None => None
        | Some outs => bind e (p_out p) outs
        end
    end.

  Fixpoint o_nodes (e : env) (l : list pnode) : option env :=
    match l with
    | [] => Some e
    | p :: r => match o_node e p with Some e' => o_nodes e' r | None => None end
    end.

  Fixpoint o_init (e : env) (l : list (string * N)) : env :=
    match l with
    | [] => e
    | (x, p) :: r => o_init (bind1 e x (cval (ATensor p))) r
    end.

  (** Run a graph: [e] gives the graph inputs (and, for a subgraph, the values
      of the enclosing scope). *)
  Definition o_run (e : env) (g : pgraph) : option env := o_nodes (o_init e (pg_init g)) (pg_nodes g).

  (** Gemm with the attributes of a linear layer. *)
  Definition gemm_standard : list (string * attr) :=
    [("alpha", AFloat f32_one); ("beta", AFloat f32_one); ("transA", AInt 0); ("transB", AInt 1)]%string.

  (** Constant data the importer can embed: tensors and numbers, not strings. *)
  Definition is_data (a : attr) : Prop :=
    match a with
    | ATensor _ | AFloat _ | AFloats _ | AInt _ | AInts _ => True
    | _ => False
    end.

  (** What ONNX says about the operators that the conversion rewrites: a
      Constant is its data, addition commutes, transA defaults to 0. *)
  Record onnx_laws : Prop := {
    law_const : forall k a, is_data a -> osem "constant" [(k, a)] 1 [] = Some [cval a];
    law_add : forall n x y, osem "add" [] n [x; y] = osem "add" [] n [y; x];
    law_gemm : forall n ins,
      osem "gemm" [("alpha", AFloat f32_one); ("beta", AFloat f32_one); ("transB", AInt 1)]%string n ins =
      osem "gemm" gemm_standard n ins
  }.

  (** The ONNX operator a node type stands for. *)
  Definition onnx_name (t : string) : string :=
    if mem_str t ["Conv1d"; "Conv2d"; "Conv3d"]%string then "conv"
    else if mem_str t ["ConvTranspose1d"; "ConvTranspose2d"; "ConvTranspose3d"]%string then "convtranspose"
    else if mem_str t ["MaxPool1d"; "MaxPool2d"]%string then "maxpool"
    else if mem_str t ["AveragePool1d"; "AveragePool2d"]%string then "averagepool"
    else lower t.

  (** The meaning of the node types of the intermediate representation: a
      Constant with embedded data is that data; a Linear is a Gemm with
      transposed weight, or a MatMul followed by the addition of the bias if
      there is one; everything else is the ONNX operator. *)
  Definition ir_sem (t : string) (attrs : list (string * attr)) (nouts : nat) (ins : list (option V)) : option (list V) :=
    if String.eqb t "Constant" then
      match ins with
      | [Some v] => Some [v]
      | _ => osem "constant" attrs nouts ins
      end
    else if String.eqb t "Linear" then
      match sget attrs "transpose_weight" with
      | Some _ => osem "gemm" gemm_standard nouts ins
      | None =>
          match ins with
          | [_; _] => osem "matmul" attrs nouts ins
          | [a; w; b] =>
              match osem "matmul" attrs 1 [a; w] with
              | Some [m] => osem "add" [] nouts [Some m; b]
              | _ => None
              end
          | _ => None
          end
      end
    else osem (onnx_name t) attrs nouts ins.

  (** Embedded data, by position in the store. *)
  Definition static_of (store : list attr) (id : N) : option V := option_map cval (nth_error store (N.to_nat id)).
End Onnx.

(** Names defined and names read in a graph. *)
Definition in_names_of (g : pgraph) : list string := map fst (pg_in g).
Definition init_names_of (g : pgraph) : list string := map fst (pg_init g).
Definition produced (l : list pnode) : list string := flat_map p_out l.
Definition consumed (l : list pnode) : list string := flat_map p_in l.
Definition graph_names (g : pgraph) : list string :=
  in_names_of g ++ init_names_of g ++ produced (pg_nodes g) ++ consumed (pg_nodes g) ++ map fst (pg_out g).

(** A name of the form the importer generates: relu1_out1. *)
Definition generated (s : string) : Prop :=
  exists t c k, In t node_types /\ s = output_name (type_name t c) k.

(** The attributes of a Gemm, in the order of their keys. *)
Definition opt_attr (k : string) (a : option attr) : list (string * attr) :=
  match a with Some a => [(k, a)] | None => [] end.
Definition gemm_attrs (alpha beta : option N) (ta tb : option Z) : list (string * attr) :=
  opt_attr "alpha" (option_map AFloat alpha) ++ opt_attr "beta" (option_map AFloat beta) ++
  opt_attr "transA" (option_map AInt ta) ++ opt_attr "transB" (option_map AInt tb).

(** One output, which is not omitted. *)
Definition single_output (p : pnode) : Prop := exists x, p_out p = [x] /\ x <> ""%string.

(** A node as the ONNX standard has it, as far as the conversion looks at it. *)
Definition legal_node (p : pnode) : Prop :=
  ~ In (lower (p_op p))
      ["conv1d"; "conv2d"; "conv3d"; "convtranspose1d"; "convtranspose2d"; "convtranspose3d";
       "maxpool1d"; "maxpool2d"; "averagepool1d"; "averagepool2d"; "linear"]%string /\
  (lower (p_op p) = "constant"%string ->
     p_in p = [] /\ single_output p /\ exists k a, p_attrs p = [(k, a)]) /\
  (lower (p_op p) = "matmul"%string -> p_attrs p = [] /\ single_output p) /\
  (lower (p_op p) = "add"%string -> p_attrs p = [] /\ single_output p) /\
  (lower (p_op p) = "gemm"%string ->
     exists alpha beta ta tb, p_attrs p = gemm_attrs alpha beta ta tb /\
       (ta = None \/ ta = Some 0%Z \/ ta = Some 1%Z)).

(** The graph is in single-assignment form; its names stay apart after
    renaming and are not of the generated form; the result of a MatMul that
    goes into the next node, an Add, goes nowhere else; every graph output is
    an input or computed. *)
Record legal_graph (g : pgraph) : Prop := {
  lg_nodes : forall p, In p (pg_nodes g) -> legal_node p;
  lg_unique : NoDup (init_names_of g ++ filter (fun x => negb (String.eqb x "")) (produced (pg_nodes g)));
  lg_inputs : forall x, In x (in_names_of g) -> ~ In x (produced (pg_nodes g));
  lg_inputs_unique : NoDup (in_names_of g);
  lg_nonempty : ~ In ""%string (in_names_of g ++ init_names_of g ++ map fst (pg_out g));
  lg_apart : forall a b, In a (graph_names g) -> In b (graph_names g) -> san a = san b -> a = b;
  lg_san_nonempty : forall a, In a (graph_names g) -> a <> ""%string -> san a <> ""%string;
  lg_not_generated : forall a, In a (graph_names g) -> ~ generated (san a);
  lg_private : forall l p q r x, pg_nodes g = l ++ p :: q :: r ->
    lower (p_op p) = "matmul"%string -> lower (p_op q) = "add"%string ->
    In x (p_out p) -> In x (p_in q) -> ~ In x (consumed r) /\ ~ In x (map fst (pg_out g));
  lg_outputs : forall x, In x (map fst (pg_out g)) ->
    In x (in_names_of g) \/ In x (init_names_of g) \/ In x (produced (pg_nodes g))
}.
