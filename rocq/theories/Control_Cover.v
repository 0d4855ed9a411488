(** The graphs the theorems about control flow are about: a condition on the
    graph as it reaches the code generator (types recorded for its values,
    names), level by level. *)
From Verif Require Import Control_Spec Control_Model.
Import Tensor_Spec BinOps_Spec RankOps_Spec ShapeRun_Spec TensorRun_Spec Control_Spec.
Local Open Scope Z_scope.

(** Variables of these types have the same Rust type. *)
Definition same_type (a b : argty) : Prop :=
  match a, b with
  | ScalarTensor d, ScalarTensor d' | ScalarNative d, ScalarNative d' => d = d'
  | ShapeT k, ShapeT k' => k = k'
  | TensorT t, TensorT u => tt_dtype t = tt_dtype u /\ tt_rank t = tt_rank u
  | _, _ => False
  end.
Definition condition_type (t : argty) : Prop :=
  match t with ScalarNative d | ScalarTensor d => d = BoolT | TensorT t => tt_dtype t = BoolT | ShapeT _ => False end.
(** All names that occur as inputs of nodes or outputs of the graph. *)
Definition mentions (g : cgraph) : list string :=
  flat_map (fun n => map aname (cn_ins n)) (cg_nodes g) ++ map aname (cg_outs g).
Definition defines (g : cgraph) : list string := flat_map (fun n => map aname (cn_outs n)) (cg_nodes g).
Definition names (l : list arg) : list string := map aname l.

(** The captured values can be bound one after the other: a name under which
    one is known inside is not the name of a later one outside, unless nothing
    is renamed.  Shapes are not renamed. *)
Fixpoint bindable (refs : list string) (caps : list arg) : Prop :=
  match refs, caps with
  | r :: refs, c :: caps =>
      (r = aname c \/ ~ In r (names caps)) /\ (match aty c with ShapeT _ => r = aname c | _ => True end) /\ bindable refs caps
  | [], [] => True
  | _, _ => False
  end.
(** The values handed to the next iteration can be assigned one after the
    other: none is a value of this iteration that has already been replaced. *)
Fixpoint assignable (vars outs : list string) : Prop :=
  match vars, outs with
  | v :: vars, o :: outs => (v = o \/ ~ In v outs) /\ assignable vars outs
  | _, _ => True
  end.
(** Names the code of a Scan uses for itself. *)
Definition scan_name (x : string) : Prop := x = "i"%string \/ x = "seq_len"%string \/ exists y, x = ("scan_output_" ++ y)%string.

Section Cover.
  Variable value : arg -> option cval.
  Variable opset : N.

  (** An input of a node: [ty] gives the types of the names. *)
  Definition input_ok (ty : string -> argty) (a : arg) : Prop :=
    (run_time a -> aty a = ty (aname a)) /\
    (forall c, constant_of value a = Some c -> twf (snd c) /\ Forall (in_dtype (fst c)) (tdata (snd c))).
  Definition variable (ty : string -> argty) (a : arg) : Prop := run_time a /\ aname a <> ""%string /\ input_ok ty a.
  Definition output_ok (ty : string -> argty) (a : arg) : Prop := aty a = ty (aname a).
  (** The type of a constant's variable. *)
  Definition constant_type (c : otensor) (t : argty) : Prop :=
    match t with
    | TensorT y => tt_dtype y = fst c /\ tt_rank y = N.of_nat (length (tshape (snd c))) /\ tt_rank y <> 0%N
    | ScalarTensor d | ScalarNative d => d = fst c /\ tshape (snd c) = []
    | ShapeT k => fst c = I64 /\ tshape (snd c) = [k]
    end.

  Inductive well : (string -> argty) -> cnode -> Prop :=
  | w_leaf ty n : ntype n <> "Constant"%string -> Forall (input_ok ty) (ninputs n) -> Forall (output_ok ty) (noutputs n) ->
      Forall (fun a => run_time a \/ constant_of value a = None -> aname a <> ""%string) (ninputs n) ->
      infer_any value opset n = IOk (map aty (noutputs n)) -> well ty (CLeaf n)
  | w_constant ty n i o : ntype n = "Constant"%string -> ninputs n = [i] -> noutputs n = [o] -> output_ok ty o ->
      (forall c, constant_of value i = Some c -> twf (snd c) /\ Forall (in_dtype (fst c)) (tdata (snd c)) /\ constant_type c (aty o)) ->
      well ty (CLeaf n)
  | w_if ty c caps outs refs th el : variable ty c -> condition_type (aty c) ->
      Forall (variable ty) caps -> bindable refs caps -> well_graph refs caps th -> well_graph refs caps el ->
      cg_ins th = [] -> cg_ins el = [] ->
      Forall (output_ok ty) outs -> Forall2 (fun o b => same_type (aty b) (aty o)) outs (cg_outs th) ->
      Forall2 (fun o b => same_type (aty b) (aty o)) outs (cg_outs el) ->
      well ty (CIf (c :: caps) outs refs th el)
  (** No scan outputs; the trip count, when given, is a native number; the
      condition computed by the body is not one of the carried inputs, and when
      no condition is given the body hands on the one it gets. *)
  | w_loop ty m c inits caps outs refs body fi fc fvs oc bouts :
      (is_optional m = true \/ (variable ty m /\ aty m = ScalarNative I64)) ->
      (is_optional c = true \/ (variable ty c /\ condition_type (aty c))) ->
      Forall (variable ty) inits -> Forall (variable ty) caps -> bindable refs caps -> length refs = length caps ->
      cg_ins body = fi :: fc :: fvs -> cg_outs body = oc :: bouts ->
      well_graph refs caps body ->
      aty fi = ScalarNative I64 -> aty fc = ScalarNative BoolT -> (aty oc = ScalarNative BoolT \/ aty oc = ScalarTensor BoolT) ->
      NoDup (names (cg_ins body)) ->
      (forall x, In x (names (cg_ins body)) -> ~ In x (names (m :: c :: inits ++ caps)) /\ ~ In x (defines body)) ->
      Forall2 (fun f i => same_type (aty i) (aty f)) fvs inits -> Forall2 (fun f b => same_type (aty b) (aty f)) fvs bouts ->
      Forall (output_ok ty) outs -> Forall2 (fun f o => same_type (aty f) (aty o)) fvs outs ->
      assignable (names fvs) (names bouts) -> ~ In (aname oc) (names fvs) ->
      (is_optional c = true -> aname oc = aname fc) ->
      well ty (CLoop (m :: c :: inits ++ caps) outs refs body)
  (** Sequences are tensors of rank at least two; axes are not negative. *)
  | w_scan ty inits seqs caps outs refs cfg body states elements stouts scouts :
      Forall (variable ty) inits -> Forall (variable ty) seqs -> Forall (variable ty) caps ->
      bindable refs caps -> length refs = length caps -> length seqs = sc_count cfg ->
      Forall (fun s => exists t, aty s = TensorT t /\ (2 <= tt_rank t)%N) seqs ->
      Forall (fun a => 0 <= a <= 9223372036854775807) (sc_in_axes cfg) -> Forall (fun a => 0 <= a <= 9223372036854775807) (sc_out_axes cfg) ->
      cg_ins body = states ++ elements -> cg_outs body = stouts ++ scouts -> length elements = length seqs ->
      well_graph refs caps body -> NoDup (names (cg_ins body)) ->
      (forall x, In x (names (cg_ins body)) -> ~ In x (names (inits ++ seqs ++ caps)) /\ ~ In x (defines body)) ->
      (forall x, In x (names (inits ++ seqs ++ caps) ++ names (cg_ins body) ++ mentions body ++ defines body ++ refs) -> ~ scan_name x) ->
      Forall2 (fun f i => same_type (aty i) (aty f)) states inits -> Forall2 (fun f b => same_type (aty b) (aty f)) states stouts ->
      Forall2 (fun f s => exists t u, aty s = TensorT t /\ aty f = TensorT u /\ tt_dtype u = tt_dtype t /\ (tt_rank u + 1 = tt_rank t)%N) elements seqs ->
      Forall (fun o => exists t, aty o = TensorT t) scouts ->
      Forall (output_ok ty) outs ->
      Forall2 (fun b o => same_type (aty b) (aty o)) stouts (firstn (length stouts) outs) ->
      Forall2 (fun b o => exists t u, aty b = TensorT t /\ aty o = TensorT u /\ tt_dtype u = tt_dtype t /\ (tt_rank u = tt_rank t + 1)%N)
              scouts (skipn (length stouts) outs) ->
      assignable (names states) (names stouts) -> (forall x, In x (names states) -> ~ In x (names scouts)) ->
      well ty (CScan (inits ++ seqs ++ caps) outs refs cfg body)
  (** A subgraph whose captured values are [caps], known inside as [refs]. *)
  with well_graph : list string -> list arg -> cgraph -> Prop :=
  | w_graph refs caps g ty :
      (forall r c, In (r, c) (combine refs caps) -> In r (mentions g) -> ~ In r (names (cg_ins g)) -> same_type (aty c) (ty r)) ->
      Forall (output_ok ty) (cg_ins g) -> Forall (well ty) (cg_nodes g) ->
      Forall (fun o => aname o <> ""%string /\ output_ok ty o) (cg_outs g) -> well_graph refs caps g.
End Cover.
