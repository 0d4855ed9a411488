(** What ONNX prescribes for graphs with If, Loop and Scan nodes nested to any
    depth.  Nothing here mentions the generated code. *)
From Verif Require Export TensorRun_Spec.
Local Open Scope Z_scope.

(** ** Graphs.  A control-flow node has the inputs of the ONNX operator followed
    by the values its subgraphs take from the surrounding graph; [refs] are the
    names under which the subgraphs know the latter
    (crates/onnx-ir/src/node/{if_node,loop_node,scan_node}.rs, [IfConfig],
    [LoopConfig], [ScanConfig]; crates/onnx-ir/src/ir/graph.rs, [OnnxGraph]). *)
Record scan_cfg := mkScan {
  sc_count : nat;                                   (* num_scan_inputs *)
  sc_in_axes : list Z; sc_in_dirs : list Z;
  sc_out_axes : list Z; sc_out_dirs : list Z
}.
Inductive cnode :=
| CLeaf (n : rnode)
| CIf (ins outs : list arg) (refs : list string) (th el : cgraph)
| CLoop (ins outs : list arg) (refs : list string) (body : cgraph)
| CScan (ins outs : list arg) (refs : list string) (cfg : scan_cfg) (body : cgraph)
with cgraph := mkCG (gin : list arg) (gns : list cnode) (gout : list arg).
Definition cg_ins (g : cgraph) := let (i, _, _) := g in i.
Definition cg_nodes (g : cgraph) := let (_, n, _) := g in n.
Definition cg_outs (g : cgraph) := let (_, _, o) := g in o.
Definition cn_ins (n : cnode) : list arg :=
  match n with CLeaf n => ninputs n | CIf i _ _ _ _ | CLoop i _ _ _ | CScan i _ _ _ _ => i end.
Definition cn_outs (n : cnode) : list arg :=
  match n with CLeaf n => noutputs n | CIf _ o _ _ _ | CLoop _ o _ _ | CScan _ o _ _ _ => o end.

(** ** Values *)
Definition bool_value (b : bool) : otensor := (BoolT, mkT [] [EB b]).
Definition int_value (z : Z) : otensor := (I64, mkT [] [EI z]).
(** A condition: a boolean tensor with one element. *)
Definition truth (t : otensor) : option bool :=
  match t with (BoolT, x) => match tdata x with [EB b] => if (prodN (tshape x) =? 1)%N then Some b else None | _ => None end | _ => None end.

(** The tensors [ts], all of one shape, next to each other along a new axis [a]. *)
Definition stacked (a : nat) (ts : list (tensor elt)) : option (tensor elt) :=
  match ts with
  | [] => None
  | t :: _ =>
      let s := tshape t in
      if (a <=? length s)%nat && forallb (fun u => if list_eq_dec N.eq_dec (tshape u) s then true else false) ts then
        tab (firstn a s ++ [N.of_nat (length ts)] ++ skipn a s)
            (fun idx => match nth_error ts (N.to_nat (nth a idx 0%N)) with
                        | Some u => get u (firstn a idx ++ skipn (S a) idx)
                        | None => None end)
      else None
  end.
(** The element at place [t] of a sequence along the axis [a]. *)
Definition element_at (a : nat) (t : N) (x : tensor elt) : option (tensor elt) :=
  onnx_gather (Z.of_nat a) x (mkT [] [EI (Z.of_N t)]).
Definition same_dtype (ts : list otensor) : option dtype :=
  match ts with
  | [] => None
  | t :: _ => if forallb (fun u => if dtype_eq_dec (fst u) (fst t) then true else false) ts then Some (fst t) else None
  end.
Definition stacked_values (a : nat) (ts : list otensor) : option otensor :=
  match same_dtype ts, stacked a (map snd ts) with Some d, Some x => Some (d, x) | _, _ => None end.
(** Column [k] of the rows collected in the iterations. *)
Definition column (rows : list (list otensor)) (k : nat) : option (list otensor) := mapo (fun r => nth_error r k) rows.

Section Control.
  Variable constant : arg -> option otensor.
  Variable step : rnode -> list otensor -> list otensor -> Prop.

  (** Inputs: constants, and values by name; the constant recorded for a value
      that also has a name is that value. *)
  Definition reads (e : oenv) (ins : list arg) (vs : list otensor) : Prop :=
    mapo (input_of constant e) ins = Some vs /\
    (forall a c, In a ins -> constant a = Some c -> run_time a -> e (aname a) = Some c).
  (** The environment of a subgraph: what it captures, then its own inputs. *)
  Definition inside (refs : list string) (caps : list otensor) (formals : list arg) (vs : list otensor) : oenv :=
    bind_all (bind_all (fun _ => None) refs caps) (map aname formals) vs.

  (** Trip count and condition of a Loop; both may be omitted. *)
  Inductive trips (e : oenv) (m : arg) : option Z -> Prop :=
  | tr_none : is_optional m = true -> trips e m None
  | tr_some z : is_optional m = false -> reads e [m] [int_value z] -> trips e m (Some z).
  Inductive begins (e : oenv) (c : arg) : option bool -> Prop :=
  | bg_none : is_optional c = true -> begins e c None
  | bg_some v b : is_optional c = false -> reads e [c] [v] -> tshape (snd v) = [] -> truth v = Some b -> begins e c (Some b).
  (** Another iteration: the ONNX text has the four forms [for (i = 0; i < M && cond; ++i)],
      [for (i = 0; i < M; ++i)], [while (cond)] and [for (;;)]; without an
      initial condition the one computed by the body is ignored. *)
  Definition another (m : option Z) (given : bool) (i : Z) (c : bool) : bool :=
    match m with Some z => i <? z | None => true end && (if given then c else true).

  Inductive rgraph : oenv -> cgraph -> list otensor -> Prop :=
  | rg e ins ns outs e' vs : rnodes e ns e' -> mapo (fun o => e' (aname o)) outs = Some vs -> rgraph e (mkCG ins ns outs) vs
  with rnodes : oenv -> list cnode -> oenv -> Prop :=
  | rn_nil e : rnodes e [] e
  | rn_cons e n ns vs e' : rstep e n vs -> length vs = length (cn_outs n) ->
      rnodes (bind_all e (map aname (cn_outs n)) vs) ns e' -> rnodes e (n :: ns) e'
  with rstep : oenv -> cnode -> list otensor -> Prop :=
  | rn_leaf e n ins outs : reads e (ninputs n) ins -> step n ins outs -> rstep e (CLeaf n) outs
  | rn_constant e n i c : ntype n = "Constant"%string -> ninputs n = [i] -> constant i = Some c -> rstep e (CLeaf n) [c]
  | rn_if e c caps outs refs th el v vs b rs :
      reads e (c :: caps) (v :: vs) -> length refs = length caps -> truth v = Some b ->
      rgraph (inside refs vs [] []) (if b then th else el) rs -> rstep e (CIf (c :: caps) outs refs th el) rs
  | rn_loop e m c inits caps outs refs body M C vs ws finals rows scans :
      trips e m M -> begins e c C -> reads e inits vs -> reads e caps ws -> length refs = length caps ->
      length (cg_ins body) = (2 + length inits)%nat ->
      rloop refs ws body M (match C with Some _ => true | None => false end) 0 (match C with Some b => b | None => true end) vs finals rows ->
      mapo (fun k => match column rows k with Some col => stacked_values 0 col | None => None end)
           (seq 0 (length (cg_outs body) - 1 - length inits)) = Some scans ->
      rstep e (CLoop (m :: c :: inits ++ caps) outs refs body) (finals ++ scans)
  | rn_scan e inits seqs caps outs refs cfg body vs xs ws L finals rows scans :
      reads e inits vs -> reads e seqs xs -> reads e caps ws -> length refs = length caps ->
      length seqs = sc_count cfg -> seqs <> [] -> length (cg_ins body) = (length inits + length seqs)%nat ->
      (forall k x, nth_error xs k = Some x -> let a := position (length (tshape (snd x))) (nth k (sc_in_axes cfg) 0) in
         axis_ok (length (tshape (snd x))) (nth k (sc_in_axes cfg) 0) = true /\ nth a (tshape (snd x)) 0%N = L) ->
      rscan refs ws body cfg xs L 0 vs finals rows ->
      mapo (fun k => match column rows k with
                     | Some col =>
                         let r := S (length (tshape (snd (hd (int_value 0) col)))) in let axis := nth k (sc_out_axes cfg) 0 in
                         if axis_ok r axis then stacked_values (position r axis) (if nth k (sc_out_dirs cfg) 0 =? 1 then rev col else col) else None
                     | None => None end)
           (seq 0 (length (cg_outs body) - length inits)) = Some scans ->
      rstep e (CScan (inits ++ seqs ++ caps) outs refs cfg body) (finals ++ scans)
  (** [rloop refs ws body M given i c vs finals rows]: from iteration [i] on,
      with condition [c] and carried values [vs]; iteration numbers are int64. *)
  with rloop : list string -> list otensor -> cgraph -> option Z -> bool -> Z -> bool -> list otensor -> list otensor -> list (list otensor) -> Prop :=
  | rl_end refs ws body M given i c vs : another M given i c = false -> rloop refs ws body M given i c vs vs []
  | rl_next refs ws body M given i c vs cv c' vs' ss finals rows : another M given i c = true -> i + 1 <= 9223372036854775807 ->
      rgraph (inside refs ws (cg_ins body) (int_value i :: bool_value c :: vs)) body (cv :: vs' ++ ss) ->
      tshape (snd cv) = [] -> truth cv = Some c' -> length vs' = length vs ->
      rloop refs ws body M given (i + 1) c' vs' finals rows ->
      rloop refs ws body M given i c vs finals (ss :: rows)
  (** [rscan refs ws body cfg xs L t vs finals rows]: from step [t] on. *)
  with rscan : list string -> list otensor -> cgraph -> scan_cfg -> list otensor -> N -> N -> list otensor -> list otensor -> list (list otensor) -> Prop :=
  | rs_end refs ws body cfg xs L vs : rscan refs ws body cfg xs L L vs vs []
  | rs_next refs ws body cfg xs L t vs es vs' ss finals rows : (t < L)%N ->
      mapo (fun kx => let x := snd kx in let a := position (length (tshape (snd x))) (nth (fst kx) (sc_in_axes cfg) 0) in
                      option_map (pair (fst x)) (element_at a (if nth (fst kx) (sc_in_dirs cfg) 0 =? 1 then (L - 1 - t)%N else t) (snd x)))
           (combine (seq 0 (length xs)) xs) = Some es ->
      rgraph (inside refs ws (cg_ins body) (vs ++ es)) body (vs' ++ ss) -> length vs' = length vs ->
      rscan refs ws body cfg xs L (t + 1) vs' finals rows ->
      rscan refs ws body cfg xs L t vs finals (ss :: rows).
End Control.
