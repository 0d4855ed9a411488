(** Model of the interface of the generated [forward]:
    crates/burn-onnx/src/burn/argument_helpers.rs and
    crates/burn-onnx/src/burn/graph.rs (registration of inputs and outputs,
    conversions of scalars at the boundary, header and returned expression).
    Code is the list of its tokens. *)
From Verif Require Import IR_Model Iface_Spec.

(** burn_tensor's [DType::is_float], [is_int], [is_uint], [is_bool] on the
    element types of ONNX. *)
Definition is_float (d : dtype) : bool := match d with F64 | F32 | F16 | BF16 => true | _ => false end.
Definition is_int (d : dtype) : bool := match d with I64 | I32 | I16 | I8 => true | _ => false end.
Definition is_uint (d : dtype) : bool := match d with U64 | U32 | U16 | U8 => true | _ => false end.
Definition is_bool (d : dtype) : bool := match d with BoolT => true | _ => false end.

Section Tokens.
Local Open Scope string_scope.
Local Open Scope list_scope.

(** argument_helpers.rs:44-61 [scalar_type_tokens]; the element types it panics
    on are not among those of ONNX. *)
Definition scalar_type_tokens (d : dtype) : list token :=
  match d with
  | F16 => ["half"; "::"; "f16"] | BF16 => ["half"; "::"; "bf16"] | F32 => ["f32"] | F64 => ["f64"]
  | I8 => ["i8"] | I16 => ["i16"] | I32 => ["i32"] | I64 => ["i64"]
  | U8 => ["u8"] | U16 => ["u16"] | U32 => ["u32"] | U64 => ["u64"]
  | BoolT => ["bool"]
  end.

(** argument_helpers.rs:20-27 and 30-35: a tensor type; [rank.to_tokens()] is the
    number without suffix (codegen.rs:51-55). *)
Definition tensor_tokens (d : dtype) (rank : token) : list token :=
  if is_float d then ["Tensor"; "<"; "B"; ","; rank; ">"]
  else if is_int d || is_uint d then ["Tensor"; "<"; "B"; ","; rank; ","; "Int"; ">"]
  else if is_bool d then ["Tensor"; "<"; "B"; ","; rank; ","; "Bool"; ">"]
  else ["Tensor"; "<"; "B"; ","; rank; ">"].

(** argument_helpers.rs:16-41 [arg_type_tokens]. *)
Definition arg_type_tokens (a : arg) : list token :=
  match aty a with
  | TensorT t => tensor_tokens (tt_dtype t) (dec (tt_rank t))
  | ScalarNative d => scalar_type_tokens d
  | ScalarTensor d => tensor_tokens d "1"
  | ShapeT r => ["["; "i64"; ";"; dec r; "]"]
  end.

(** [quote! { #(#items),* }]: the items with commas between them. *)
Fixpoint commas (l : list (list token)) : list token :=
  match l with
  | [] => []
  | [x] => x
  | x :: r => x ++ [","] ++ commas r
  end.

(** argument_helpers.rs:110-112 [arg_ident]: the name as an identifier (that it
    is one is the subject of C03). *)
Definition arg_ident (a : arg) : token := aname a.

(** argument_helpers.rs:117-128 [codegen_fn_params]. *)
Definition codegen_fn_params (l : list arg) : list token :=
  commas (map (fun a => [arg_ident a; ":"] ++ arg_type_tokens a) l).

(** argument_helpers.rs:134-141 [codegen_return_type]. *)
Definition codegen_return_type (l : list arg) : list token :=
  match l with
  | [a] => arg_type_tokens a
  | _ => ["("] ++ commas (map arg_type_tokens l) ++ [")"]
  end.

(** argument_helpers.rs:147-155 [codegen_return_expr]. *)
Definition codegen_return_expr (l : list arg) : list token :=
  match l with
  | [a] => [arg_ident a]
  | _ => ["("] ++ commas (map (fun a => [arg_ident a]) l) ++ [")"]
  end.
End Tokens.

(** A graph as [into_burn] (model_gen.rs:371-397) receives it: the arguments of
    every node, and the declared inputs and outputs. *)
Record igraph := mkGraph {
  ig_nodes : list (list arg * list arg);
  ig_ins : list arg;
  ig_outs : list arg
}.

(** A [HashMap] filled by inserting one argument after the other: the last one
    of a name stays (graph.rs:609-618). *)
Definition lookup_last (x : string) (l : list arg) : option arg :=
  find (fun a => String.eqb (aname a) x) (rev l).

Fixpoint sequence {A} (l : list (option A)) : option (list A) :=
  match l with
  | [] => Some []
  | Some x :: r => match sequence r with Some s => Some (x :: s) | None => None end
  | None :: _ => None
  end.

(** graph.rs:620-637: the inputs by name, from the nodes that read them or else
    from the declared arguments at the same position; [None] for a panic. *)
Definition register_inputs (nodes : list (list arg * list arg)) (names : list string) (args : list arg) : option (list arg) :=
  sequence (map (fun p => match lookup_last (snd p) (flat_map fst nodes) with
                          | Some a => Some a
                          | None => nth_error args (fst p)
                          end) (enumerate names)).

(** graph.rs:639-660: the outputs, from the declared arguments under the given
    names, or by name from the nodes if none are declared. *)
Definition register_outputs (nodes : list (list arg * list arg)) (names : list string) (args : list arg) : option (list arg) :=
  match args with
  | [] => sequence (map (fun x => lookup_last x (flat_map snd nodes)) names)
  | _ => Some (map (fun p => mkArg (fst p) (aty (snd p)) (asrc (snd p))) (combine names args))
  end.

(** graph.rs:592-666 [register_input_output], without the conversion. *)
Definition register_input_output (nodes : list (list arg * list arg)) (input_names output_names : list string)
    (input_args output_args : list arg) : option (list arg * list arg) :=
  match nodes with
  | [] => Some (input_args, output_args)
  | _ => match register_inputs nodes input_names input_args, register_outputs nodes output_names output_args with
         | Some i, Some o => Some (i, o)
         | _, _ => None
         end
  end.

(** graph.rs:670-685 [convert_graph_boundary_scalars]: the arguments with native
    scalars, and the map of the element types converted (newest entry first). *)
Fixpoint convert (l : list arg) (m : list (string * dtype)) : list arg * list (string * dtype) :=
  match l with
  | [] => ([], m)
  | a :: r =>
      match aty a with
      | ScalarTensor d => let (l', m') := convert r ((aname a, d) :: m) in (mkArg (aname a) (ScalarNative d) (asrc a) :: l', m')
      | _ => let (l', m') := convert r m in (a :: l', m')
      end
  end.

Definition get (m : list (string * dtype)) (x : string) : option dtype :=
  match find (fun p => String.eqb (fst p) x) m with Some p => Some (snd p) | None => None end.

(** Statements at the boundary.  [Wrap x k d]:
    [let x = Tensor::<B, 1, k>::from_data_dtype(TensorData::from([x]), &device, d);]
    [Unwrap x d]: [let x = x.into_scalar().elem::<d>();]. *)
Inductive bstmt := Wrap (x : string) (k : tkind) (d : dtype) | Unwrap (x : string) (d : dtype).

(** graph.rs:510-546: conversions of the inputs. *)
Definition input_conversions (l : list arg) (m : list (string * dtype)) : list bstmt :=
  flat_map (fun a => match get m (aname a) with
                     | Some d => [Wrap (aname a) (if is_float d then KFloat else if is_int d || is_uint d then KInt else KBool) d]
                     | None => []
                     end) l.

(** graph.rs:555-566: conversions of the outputs. *)
Definition output_conversions (l : list arg) (m : list (string * dtype)) : list bstmt :=
  flat_map (fun a => match get m (aname a) with Some d => [Unwrap (aname a) d] | None => [] end) l.

(** graph.rs:503-580 [codegen_forward] after [into_burn] (model_gen.rs:371-397):
    the tokens of the header up to the opening brace, the conversions before the
    code of the nodes, those after it, and the tokens of the returned expression
    with the closing brace.  The code of the nodes is left out. *)
Record generated := mkGen {
  header : list token;
  prologue : list bstmt;
  epilogue : list bstmt;
  ending : list token
}.
Definition codegen (g : igraph) : option generated :=
  match register_input_output (ig_nodes g) (map aname (ig_ins g)) (map aname (ig_outs g)) (ig_ins g) (ig_outs g) with
  | None => None
  | Some (i, o) =>
      let (ci, mi) := convert i [] in
      let (co, mo) := convert o [] in
      Some (mkGen (["pub"; "fn"; "forward"; "("; "&"; "self"; ","]%string ++ codegen_fn_params ci ++ [")"; "->"]%string
                    ++ codegen_return_type co ++ ["{"]%string)
                  (input_conversions ci mi) (output_conversions co mo)
                  (codegen_return_expr co ++ ["}"]%string))
  end.

(** ** Running the conversions *)
Section Run.
  Variables V W : Type.
  Variables up down : dtype -> V -> V.
  Definition ienv := string -> option (rval V W).
  Definition put (e : ienv) (x : string) (v : rval V W) : ienv := fun y => if String.eqb x y then Some v else e y.

  (** Burn: [from_data_dtype] needs data of the kind of the tensor and gives the
      tensor the element type named; [into_scalar] needs a tensor. *)
  Definition brun1 (s : bstmt) (e : ienv) : option ienv :=
    match s with
    | Wrap x k d =>
        match e x with
        | Some (Native d' v) =>
            if dtype_beq d d' then
              match k, kind_of_dtype d with
              | KFloat, KFloat | KInt, KInt | KBool, KBool => Some (put e x (OnDevice d (up d v)))
              | _, _ => None
              end
            else None
        | _ => None
        end
    | Unwrap x d =>
        match e x with
        | Some (OnDevice d' v) => Some (put e x (Native d (down d v)))
        | _ => None
        end
    end.
  Fixpoint brun (l : list bstmt) (e : ienv) : option ienv :=
    match l with [] => Some e | s :: r => match brun1 s e with Some e' => brun r e' | None => None end end.

  (** The parameters of a call, by name. *)
  Fixpoint bind (xs : list string) (vs : list (rval V W)) : ienv :=
    match xs, vs with
    | x :: xr, v :: vr => put (bind xr vr) x v
    | _, _ => fun _ => None
    end.
End Run.
Arguments brun {V W}. Arguments brun1 {V W}. Arguments bind {V W}. Arguments put {V W}.
