(** Model of the ownership bookkeeping of the code generator:
    crates/burn-onnx/src/burn/scope.rs, graph.rs, node/subgraph_helper.rs,
    node/if_node.rs, node/loop_node.rs and node/scan_node.rs. *)
From Verif Require Import IR_Model Scope_Spec.

(** ** The nodes, seen from the code generator.  [forward] of a node that is not
    control flow reads its arguments with [scope.arg] ([Owned]) or, for some
    integer parameters, by the bare identifier followed by a borrow such as
    [.to_data()] ([Ident]; for example node/reshape.rs:228-239,
    node/expand.rs:26-31); which ones, and in which order, is the third argument
    of [Plain]. *)
Inductive access := Owned (a : arg) | Ident (a : arg).
Inductive cnode :=
| Plain (ins outs : list arg) (acc : list access)
| IfNode (cond : arg) (outer outs : list arg) (refs : list string) (thn els : cgraph)
| LoopNode (count cond : arg) (init outer outs : list arg) (refs : list string) (body : cgraph)
| ScanNode (init seqs outer outs : list arg) (refs : list string) (body : cgraph)
with cgraph := CGraph (gins : list arg) (gnodes : list cnode) (gouts : list arg).

Definition c_inputs (n : cnode) : list arg :=
  match n with
  | Plain ins _ _ => ins
  | IfNode cond outer _ _ _ _ => cond :: outer
  | LoopNode count cond init outer _ _ _ => count :: cond :: init ++ outer
  | ScanNode init seqs outer _ _ _ => init ++ seqs ++ outer
  end.
Definition c_outputs (n : cnode) : list arg :=
  match n with
  | Plain _ outs _ => outs
  | IfNode _ _ outs _ _ _ => outs
  | LoopNode _ _ _ _ outs _ _ => outs
  | ScanNode _ _ _ outs _ _ => outs
  end.
Definition gins g := match g with CGraph i _ _ => i end.
Definition gnodes g := match g with CGraph _ n _ => n end.
Definition gouts g := match g with CGraph _ _ o => o end.

(** [matches!(arg.ty, ArgType::Tensor(_) | ArgType::ScalarTensor(_))]. *)
Definition tracked (a : arg) : bool := match aty a with TensorT _ | ScalarTensor _ => true | _ => false end.
(** The inputs whose use is registered (graph.rs:244-249,
    subgraph_helper.rs:121-128). *)
Definition registered (a : arg) : bool := ((is_dynamic a || is_constant a) && tracked a)%bool.

(** ** scope.rs *)
(** scope.rs:10-18: [references] and [node_position] of every variable. *)
Definition scope := smap (nat * nat).

(** scope.rs:22-31. *)
Definition register_variable (s : scope) (a : arg) (pos : nat) : scope :=
  match sget s (aname a) with
  | Some (r, p) => if (p =? pos)%nat then sput s (aname a) (S r, p) else s
  | None => sput s (aname a) (0, pos)
  end.
(** scope.rs:40-50. *)
Definition register_future_use (s : scope) (a : arg) (pos : nat) : scope :=
  match sget s (aname a) with
  | Some (r, p) => if (p <=? pos)%nat then sput s (aname a) (S r, p) else s
  | None => sput s (aname a) (1, pos)
  end.
(** scope.rs:53-82: [true]: a clone. *)
Definition use_owned (s : scope) (a : arg) (pos : nat) : scope * bool :=
  match sget s (aname a) with
  | Some (r, p) =>
      if (p <=? pos)%nat then
        match r with
        | S r' => (sput s (aname a) (r', p), (0 <? r')%nat)
        | O => (s, false)
        end
      else (s, false)
  | None => (s, false)
  end.

(** scope.rs:153-162 [ScopeAtPosition::arg]. *)
Definition use_arg (s : scope) (pos : nat) (a : arg) : scope * list stmt :=
  if tracked a then
    let (s', c) := use_owned s a pos in (s', [Use (aname a) (if c then Cloned else Moved)])
  else (s, [Use (aname a) Copied]).
(** A bare identifier, moved if it is a tensor. *)
Definition bare (a : arg) : stmt := Use (aname a) (if tracked a then Moved else Copied).

Definition gen_access (s : scope) (pos : nat) (c : access) : scope * list stmt :=
  match c with
  | Owned a => use_arg s pos a
  | Ident a => (s, [Use (aname a) Copied])
  end.
Fixpoint gen_accesses (s : scope) (pos : nat) (l : list access) : scope * list stmt :=
  match l with
  | [] => (s, [])
  | c :: r => let (s1, e1) := gen_access s pos c in let (s2, e2) := gen_accesses s1 pos r in (s2, e1 ++ e2)
  end.

(** ** subgraph_helper.rs *)
(** subgraph_helper.rs:10-31 [collect_subgraph_referenced_names]. *)
Definition referenced (g : cgraph) : list string :=
  filter (fun x => negb (String.eqb x "")) (flat_map (fun n => map aname (c_inputs n)) (gnodes g) ++ map aname (gouts g)).

(** subgraph_helper.rs:46-87 [generate_outer_scope_bindings]. *)
Fixpoint bindings (s : scope) (pos : nat) (outer : list arg) (refs exclude used : list string) : scope * list stmt :=
  match refs with
  | [] => (s, [])
  | x :: refs' =>
      let (s1, e1) :=
        if (mem_str x exclude || negb (mem_str x used))%bool then (s, []) else
        match outer with
        | [] => (s, [])
        | o :: _ =>
            match aty o with
            | TensorT _ | ScalarTensor _ => let (s', _) := use_owned s o pos in (s', [Use (aname o) Cloned; Let [x]])
            | ScalarNative _ => (s, [Use (aname o) Copied; Let [x]])
            | ShapeT _ => (s, [])
            end
        end in
      let (s2, e2) := bindings s1 pos (tl outer) refs' exclude used in (s2, e1 ++ e2)
  end.

Definition reg_vars (l : list arg) (pos : nat) (s : scope) : scope :=
  fold_left (fun s a => if tracked a then register_variable s a pos else s) l s.
Definition reg_uses (l : list arg) (pos : nat) (s : scope) : scope :=
  fold_left (fun s a => if registered a then register_future_use s a pos else s) l s.

(** subgraph_helper.rs:93-138 [register_subgraph_scope]. *)
Fixpoint reg_sub_nodes (l : list cnode) (pos : nat) (s : scope) : scope :=
  match l with
  | [] => s
  | n :: r => reg_sub_nodes r (S pos) (reg_uses (c_inputs n) pos (reg_vars (c_outputs n) (S pos) s))
  end.
Definition register_subgraph (g : cgraph) (pos : nat) (s : scope) : scope :=
  let s1 := reg_vars (gins g) pos s in
  let s2 := reg_sub_nodes (gnodes g) pos s1 in
  fold_left (fun s a => match aty a with TensorT _ => register_future_use s a (pos + length (gnodes g)) | _ => s end) (gouts g) s2.

(** The variables of the generator that hold the collected values
    (scan_node.rs:103-110, 214-221) and the value stacked from them. *)
Definition collector (k : nat) : string := ("scan_output_collector_" ++ dec (N.of_nat k))%string.
Definition stacked (k : nat) : string := ("scan_output_" ++ dec (N.of_nat k))%string.
(** A value that becomes the next value of a variable (scan_node.rs:190-204):
    cloned if there are collected values. *)
Definition next_value (clone : bool) (a : arg) : stmt :=
  Use (aname a) (if tracked a then (if clone then Cloned else Moved) else Copied).

(** ** [forward] of the nodes *)
Fixpoint forward (s : scope) (pos : nat) (n : cnode) {struct n} : scope * list stmt :=
  let nodes := fix nodes (s : scope) (pos : nat) (l : list cnode) : scope * list stmt :=
    (* subgraph_helper.rs:141-155 [generate_subgraph_forward_code] *)
    match l with
    | [] => (s, [])
    | m :: r => let (s1, e1) := forward s (S pos) m in let (s2, e2) := nodes s1 (S pos) r in (s2, e1 ++ e2)
    end in
  let body (s : scope) (outer : list arg) (refs exclude : list string) (g : cgraph) : scope * list stmt :=
    (* if_node.rs:18-38, loop_node.rs:18-39 *)
    match g with
    | CGraph gi gn go =>
        let (s1, e1) := bindings s pos outer refs exclude (referenced g) in
        let s2 := register_subgraph g pos s1 in
        let (s3, e3) := nodes s2 pos gn in (s3, e1 ++ e3)
    end in
  match n with
  | Plain ins outs acc =>
      let (s1, e1) := gen_accesses s pos acc in (s1, e1 ++ [Let (map aname outs)])
  | IfNode cond outer outs refs thn els =>
      (* if_node.rs:66-131 *)
      let (s1, e1) := use_arg s pos cond in
      let (s2, e2) := body s1 outer refs [] thn in
      let (s3, e3) := body s2 outer refs [] els in
      (s3, e1 ++ [If_ (e2 ++ map bare (gouts thn)) (e3 ++ map bare (gouts els)); Let (map aname outs)])
  | LoopNode count cond init outer outs refs g =>
      (* loop_node.rs:50-370.  The conditions are evaluated where they are
         spliced: the trip count in the head of the while loop. *)
      let (s1, ecount) := if is_optional count then (s, []) else use_arg s pos count in
      let (s2, econd) := if is_optional cond then (s1, []) else use_arg s1 pos cond in
      let vars := map aname (skipn 2 (gins g)) in
      let iter := nth 0 (map aname (gins g)) ""%string in
      let cond_in := nth 1 (map aname (gins g)) ""%string in
      let carried := firstn (length init) (skipn 1 (gouts g)) in
      let scans := skipn (1 + length init) (gouts g) in
      let (s3, ebody) := body s2 outer refs (map aname (gins g)) g in
      (s3,
       [Block (
          flat_map (fun vi => [bare (snd vi); Let [fst vi]]) (combine vars init) ++
          [Let [iter]] ++ econd ++ [Let [cond_in]] ++
          [Loop_ ([Use cond_in Copied; Use iter Copied] ++ ecount ++
             [Block (ebody ++
                map (fun o => Use (aname o) Copied) scans ++
                flat_map (fun vo => if String.eqb (fst vo) (aname (snd vo)) then [] else [bare (snd vo); Assign (fst vo)])
                  (combine vars carried) ++
                match gouts g with
                | c :: _ => if String.eqb cond_in (aname c) then [] else [bare c; Assign cond_in]
                | [] => []
                end ++
                [Assign iter])])] ++
          map (fun vi => Use (fst vi) (if tracked (snd vi) then Moved else Copied)) (combine vars init));
        Let (map aname outs)])
  | ScanNode init seqs outer outs refs g =>
      (* scan_node.rs:52-309.  The directions and axes do not change which
         variables are used.  A Scan without a sequence, with fewer inputs or
         outputs of the body than the node has, or with a sequence that is not
         a tensor panics in the generator; here the lists are cut instead. *)
      let ns := length init in
      let vars := map aname (firstn ns (gins g)) in
      let elems := map aname (skipn ns (gins g)) in
      let nexts := firstn ns (gouts g) in
      let scans := skipn ns (gouts g) in
      let ks := seq 0 (length scans) in
      let clone := negb (length scans =? 0)%nat in
      let (s1, ebody) := body s outer refs (map aname (gins g)) g in
      (s1,
       [Block (
          flat_map (fun vi => [bare (snd vi); Let [fst vi]]) (combine vars init) ++
          map (fun k => Let [collector k]) ks ++
          map (fun a => Use (aname a) Copied) (firstn 1 seqs) ++ [Let ["seq_len"%string]] ++
          [Use "seq_len" Copied;
           Loop_ [Let ["i"%string];
             Block (
               flat_map (fun es => [Use (aname (snd es)) Cloned; Use "i" Copied; Let [fst es]]) (combine elems seqs) ++
               ebody ++
               flat_map (fun vo => [next_value clone (snd vo); Assign (fst vo)]) (combine vars nexts) ++
               flat_map (fun ko => [Use (collector (fst ko)) Copied; bare (snd ko)]) (combine ks scans))]] ++
          flat_map (fun k => [Use (collector k) Cloned; Let [stacked k]]) ks ++
          map (fun vi : string * bool => Use (fst vi) (if snd vi then Moved else Copied))
            (firstn (length outs) (combine vars (map tracked init) ++ map (fun k => (stacked k, true)) ks)));
        Let (map aname outs)])
  end.

(** ** graph.rs *)
Fixpoint reg_nodes (l : list cnode) (pos : nat) (s : scope) : scope :=
  match l with
  | [] => s
  | n :: r => reg_nodes r (S pos) (reg_uses (c_inputs n) pos (reg_vars (c_outputs n) (S pos) s))
  end.
(** graph.rs:220-262 [build_scope].  [ins] and [outs] are the arguments of the
    graph before [convert_graph_boundary_scalars] (graph.rs:669-685): inputs
    that it converts are registered, outputs that it converts are not. *)
Definition build_scope (g : cgraph) : scope :=
  let s1 := reg_vars (gins g) 0 [] in
  let s2 := reg_nodes (gnodes g) 0 s1 in
  fold_left (fun s a => match aty a with TensorT _ => register_future_use s a (length (gnodes g)) | _ => s end) (gouts g) s2.

Fixpoint forward_nodes (s : scope) (pos : nat) (l : list cnode) : scope * list stmt :=
  match l with
  | [] => (s, [])
  | n :: r => let (s1, e1) := forward s pos n in let (s2, e2) := forward_nodes s1 (S pos) r in (s2, e1 ++ e2)
  end.

Definition is_scalar_tensor (a : arg) : bool := match aty a with ScalarTensor _ => true | _ => false end.

(** graph.rs:509-579 [codegen_forward]: parameters, conversions of scalar
    inputs, nodes, conversions of scalar outputs, the returned tuple. *)
Definition codegen_forward (g : cgraph) : list stmt :=
  [Let (map aname (gins g))] ++
  flat_map (fun a => if is_scalar_tensor a then [Use (aname a) Copied; Let [aname a]] else []) (gins g) ++
  snd (forward_nodes (build_scope g) 0 (gnodes g)) ++
  flat_map (fun a => if is_scalar_tensor a then [Use (aname a) Moved; Let [aname a]] else []) (gouts g) ++
  map (fun a => Use (aname a) (match aty a with TensorT _ => Moved | _ => Copied end)) (gouts g).
