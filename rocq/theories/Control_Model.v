(** The code emitted for graphs with If, Loop and Scan nodes:
    crates/burn-onnx/src/burn/node/{if_node,loop_node,scan_node,subgraph_helper,
    constant}.rs, function [forward] of each.  The statements of the other nodes
    are those of TensorRun_Model.  Clones and moves are left out (they do not
    change values; Scope_Model is about them). *)
From Verif Require Export TensorRun_Model.
From Verif Require Import Control_Spec.
Import Tensor_Spec BinOps_Spec RankOps_Spec ShapeRun_Spec.
Local Open Scope N_scope.

(** ** The emitted statements *)

(** What a variable of the program holds: a value, a vector that collects
    values, or a [usize]. *)
Inductive cv := V (r : rv) | VVec (l : list rv) | VUsize (n : N).

Inductive cexpr :=
| EVar (x : string)
| EScalar (x : string)              (* x.into_scalar().elem::<T>() *)
| EInt (z : Z)                      (* z_i64, i64::MAX *)
| ETrue                             (* true *)
| EValue (r : rv)                   (* a literal, or self.<field>.val() *)
| ENew                              (* alloc::vec::Vec::new() *)
| ECat (x : string)                 (* Tensor::cat(x, 0) *)
| EColumn (x : string)              (* the elements of x in a tensor, reshaped to [len, 1] *)
| EStack (x : string) (a : N)       (* Tensor::stack(x.clone(), a) *)
| EDim (x : string) (a : N)         (* x.shape()[a] *)
| EElement (x : string) (a : N) (reverse : bool) (rank : N).
    (* x.clone().slice_dim(a, k..k + 1).squeeze_dim::<rank>(a), k is i or seq_len - i - 1 *)

Inductive cstmt :=
| SLeaf (xs : list string) (s : tstmt)                                     (* let xs = s; *)
| SLet (x : string) (e : cexpr)                                            (* let [mut] x = e; *)
| SSet (x : string) (e : cexpr)                                            (* x = e; *)
| SIncr (x : string)                                                       (* x += 1; *)
| SPush (x y : string)                                                     (* x.push(y); *)
| SReverse (x : string)                                                    (* x.reverse(); *)
| SBlock (xs : list string) (b : list cstmt) (rs : list cexpr)             (* let (xs) = { b (rs) }; *)
| SIf (xs : list string) (c : cexpr) (b1 : list cstmt) (r1 : list cexpr) (b2 : list cstmt) (r2 : list cexpr)
                                                                           (* let (xs) = if c { b1 (r1) } else { b2 (r2) }; *)
| SWhile (c i : string) (m : cexpr) (b : list cstmt)                       (* while c && i < m { b } *)
| SFor (i : string) (from : N) (upto : string) (b : list cstmt).           (* for i in from..upto { b } *)

(** ** Running them.  Variables in the order of declaration, the latest first:
    a declaration hides earlier ones of the same name until the end of the
    block, an assignment changes the visible variable and keeps its type. *)
Definition cenv := list (string * cv).
Fixpoint look (e : cenv) (x : string) : option cv :=
  match e with [] => None | (y, v) :: r => if String.eqb x y then Some v else look r x end.
Definition vars (e : cenv) : renv := fun x => match look e x with Some (V r) => Some r | _ => None end.

(** The Rust type: the rank of a tensor, the kind of a scalar, the length of an
    array.  (The element kind of tensors is left out.) *)
Definition same_rust (a b : cv) : bool :=
  match a, b with
  | V (RTensor t), V (RTensor u) => Nat.eqb (length (tshape t)) (length (tshape u))
  | V (RNative (EI _)), V (RNative (EI _)) | V (RNative (EB _)), V (RNative (EB _)) | V (RNative (EF _)), V (RNative (EF _)) => true
  | V (RShape l), V (RShape m) => Nat.eqb (length l) (length m)
  | VVec _, VVec _ => true
  | _, _ => false
  end.
Fixpoint assign (x : string) (v : cv) (e : cenv) : option cenv :=
  match e with
  | [] => None
  | (y, w) :: r => if String.eqb x y then if same_rust w v then Some ((y, v) :: r) else None
                   else option_map (cons (y, w)) (assign x v r)
  end.
Fixpoint declare (xs : list string) (vs : list cv) (e : cenv) : option cenv :=
  match xs, vs with
  | [], [] => Some e
  | x :: xs, v :: vs => declare xs vs ((x, v) :: e)
  | _, _ => None
  end.
(** The end of a block entered with the variables [e]. *)
Definition leave (e e1 : cenv) : cenv := skipn (length e1 - length e) e1.

(** [Tensor::stack]: along a new dimension. *)
Definition b_stack (a : N) (xs : list (tensor elt)) : option (tensor elt) :=
  let a := N.to_nat a in
  match xs with
  | [] => None
  | x :: _ =>
      if (a <=? length (tshape x))%nat && forallb (fun y => all2 N.eqb (tshape y) (tshape x)) xs
      then tab (firstn a (tshape x) ++ N.of_nat (length xs) :: skipn a (tshape x))
               (fun idx => obind (nth_error xs (N.to_nat (nth a idx 0))) (fun y => get y (firstn a idx ++ skipn (S a) idx)))
      else None
  end.
Definition tensor_of (r : rv) : option (tensor elt) := match r with RTensor t => Some t | _ => None end.
Definition native_of (r : rv) : option elt := match r with RNative x => Some x | _ => None end.
Definition eval (e : cenv) (x : cexpr) : option cv :=
  match x with
  | EVar x => look e x
  | EScalar x => obind (tens (vars e) x) (fun t => match tdata t with [v] => Some (V (RNative v)) | _ => None end)
  | EInt z => Some (V (RNative (EI z)))
  | ETrue => Some (V (RNative (EB true)))
  | EValue r => Some (V r)
  | ENew => Some (VVec [])
  | ECat x => match look e x with Some (VVec l) => obind (mapo tensor_of l) (fun ts => option_map (fun t => V (RTensor t)) (b_cat 0 ts)) | _ => None end
  | EColumn x => match look e x with
                 | Some (VVec l) => option_map (fun xs => V (RTensor (mkT [N.of_nat (length xs); 1] xs))) (mapo native_of l)
                 | _ => None end
  | EStack x a => match look e x with Some (VVec l) => obind (mapo tensor_of l) (fun ts => option_map (fun t => V (RTensor t)) (b_stack a ts)) | _ => None end
  | EDim x a => obind (tens (vars e) x) (fun t => option_map VUsize (nth_error (tshape t) (N.to_nat a)))
  | EElement x a reverse rank =>
      obind (tens (vars e) x) (fun t =>
      match look e "i", look e "seq_len" with
      | Some (VUsize i), Some (VUsize n) =>
          if reverse && (n <? i + 1) then None else
          let k := Z.of_N (if reverse then n - i - 1 else i) in
          if a <? N.of_nat (length (tshape t)) then
            obind (b_slice (map (fun j => if N.eqb j a then Some (mkRange k (Some (k + 1)%Z) 1) else None) (upto (N.of_nat (length (tshape t))))) t)
                  (fun y => option_map (fun z => V (RTensor z)) (b_squeeze_dims rank [Z.of_N a] y))
          else None
      | _, _ => None
      end)
  end.

(** With [fuel] steps: the variables at the end, a panic or code that does not
    compile, or not finished. *)
Inductive outcome := Done (e : cenv) | Fails | Runs_on.
Fixpoint run (fuel : nat) (p : list cstmt) (e : cenv) : outcome :=
  match fuel with
  | O => Runs_on
  | S f =>
      match p with
      | [] => Done e
      | s :: r =>
          let next o := match o with Some e => run f r e | None => Fails end in
          match s with
          | SLeaf xs s => next (obind (texec (vars e) s) (fun vs => declare xs (map V vs) e))
          | SLet x ex => next (option_map (fun v => (x, v) :: e) (eval e ex))
          | SSet x ex => next (obind (eval e ex) (fun v => assign x v e))
          | SIncr x => next (match look e x with Some (V (RNative (EI z))) => assign x (V (RNative (EI (z + 1)))) e | _ => None end)
          | SPush x y => next (match look e x, look e y with Some (VVec l), Some (V r) => assign x (VVec (l ++ [r])) e | _, _ => None end)
          | SReverse x => next (match look e x with Some (VVec l) => assign x (VVec (rev l)) e | _ => None end)
          | SBlock xs b rs =>
              match run f b e with
              | Done e1 => next (obind (mapo (eval e1) rs) (fun vs => declare xs vs (leave e e1)))
              | o => o
              end
          | SIf xs c b1 r1 b2 r2 =>
              match eval e c with
              | Some (V (RNative (EB b))) =>
                  match run f (if b then b1 else b2) e with
                  | Done e1 => next (obind (mapo (eval e1) (if b then r1 else r2)) (fun vs => declare xs vs (leave e e1)))
                  | o => o
                  end
              | _ => Fails
              end
          | SWhile c i m b =>
              match look e c with
              | Some (V (RNative (EB true))) =>
                  match look e i, eval e m with
                  | Some (V (RNative (EI z))), Some (V (RNative (EI k))) =>
                      if (z <? k)%Z then match run f b e with Done e1 => run f (s :: r) (leave e e1) | o => o end
                      else run f r e
                  | _, _ => Fails
                  end
              | Some (V (RNative (EB false))) => run f r e
              | _ => Fails
              end
          | SFor i k n b =>
              match look e n with
              | Some (VUsize m) =>
                  if k <? m then match run f b ((i, VUsize k) :: e) with
                                 | Done e1 => run f (SFor i (k + 1) n b :: r) (leave e e1)
                                 | o => o end
                  else run f r e
              | _ => Fails
              end
          end
      end
  end.

(** ** The generators *)
(** subgraph_helper.rs:10-31, [collect_subgraph_referenced_names]. *)
Definition used_names (g : cgraph) : list string :=
  filter (fun x => negb (String.eqb x "")) (flat_map (fun n => map aname (cn_ins n)) (cg_nodes g) ++ map aname (cg_outs g)).
(** subgraph_helper.rs:47-91, [generate_outer_scope_bindings]. *)
Fixpoint gen_bindings (refs : list string) (caps : list arg) (exclude used : list string) : list cstmt :=
  match refs, caps with
  | r :: refs, c :: caps =>
      let rest := gen_bindings refs caps exclude used in
      if mem_str r exclude || negb (mem_str r used) then rest
      else match aty c with
           | ShapeT _ => rest
           | _ => SLet r (EVar (aname c)) :: rest
           end
  | _, _ => []
  end.
(** if_node.rs:73-87 and loop_node.rs:96-113: a condition. *)
Definition gen_condition (c : arg) : option cexpr :=
  match aty c with
  | ScalarNative _ => Some (EVar (aname c))
  | ScalarTensor _ | TensorT _ => Some (EScalar (aname c))
  | ShapeT _ => None
  end.
Definition collector (p : string) (k : nat) : string := (p ++ dec (N.of_nat k))%string.
(** loop_node.rs:138-160: [let var = initial;]. *)
Definition gen_inits (formals inits : list arg) : list cstmt :=
  map (fun fi => SLet (aname (fst fi)) (EVar (aname (snd fi)))) (combine formals inits).
(** loop_node.rs:203-214, [update_vars]. *)
Definition gen_updates (formals outs : list arg) : list cstmt :=
  flat_map (fun fo => if String.eqb (aname (fst fo)) (aname (snd fo)) then [] else [SSet (aname (fst fo)) (EVar (aname (snd fo)))])
           (combine formals outs).
Definition is_collectable (t : argty) : bool := match t with ShapeT _ => false | _ => true end.
(** loop_node.rs:270-315: the value of a scan output. *)
Definition gen_scan_value (k : nat) (o : arg) : cexpr :=
  match aty o with
  | ScalarNative _ => EColumn (collector "scan_collector_" k)
  | _ => ECat (collector "scan_collector_" k)
  end.
Definition usize (z : Z) : N := to_usize z.

Section Gen.
  Variable value : arg -> option cval.
  Variable opset : N.

  (** constant.rs:172-258; integers only. *)
  Definition const_value (o : arg) (v : cval) : option rv :=
    obind (cv_ints v) (fun l =>
    match aty o with
    | TensorT _ => Some (RTensor (mkT (match cv_shape v with [] => [1] | s => s end) (map EI l)))
    | ScalarTensor _ => match l with z :: _ => Some (RTensor (mkT [1] [EI z])) | [] => None end
    | ScalarNative _ => match l with z :: _ => Some (RNative (EI z)) | [] => None end
    | ShapeT k => if N.of_nat (length l) =? k then Some (RShape l) else None
    end).
  Definition gen_leaf (n : rnode) : option cstmt :=
    if String.eqb (ntype n) "Constant" then
      match ninputs n, noutputs n with
      | i :: _, o :: _ => obind (value i) (fun v => option_map (fun r => SLet (aname o) (EValue r)) (const_value o v))
      | _, _ => None
      end
    else option_map (SLeaf (map aname (noutputs n))) (gen_any value opset n).

  (** loop_node.rs:49-387. *)
  Definition gen_loop (ins outs : list arg) (refs : list string) (body : cgraph) (code : list cstmt) : option (list cstmt) :=
    match ins, cg_ins body, cg_outs body with
    | m :: c :: rest, fi :: fc :: fvs, oc :: bouts =>
        let nv := (length rest - length refs)%nat in
        let inits := firstn nv rest in let caps := skipn nv rest in
        let louts := firstn nv bouts in let souts := skipn nv bouts in
        let ks := seq 0 (length outs - nv) in
        obind (if is_optional m then Some (EInt 9223372036854775807)
               else match aty m with
                    | ScalarNative _ => Some (EVar (aname m))
                    | ScalarTensor _ | TensorT _ => Some (EScalar (aname m))
                    | ShapeT _ => None end) (fun max =>
        obind (if is_optional c then Some ETrue else gen_condition c) (fun cond =>
        if (nv <=? length fvs)%nat && (nv <=? length outs)%nat && Nat.eqb (length souts) (length ks) && forallb (fun o => is_collectable (aty o)) souts then
          let update_cond :=
            if String.eqb (aname fc) (aname oc) then []
            else [SSet (aname fc) (match aty oc with ScalarTensor _ => EScalar (aname oc) | _ => EVar (aname oc) end)] in
          Some [SBlock (map aname outs)
            (gen_inits fvs inits ++
             map (fun k => SLet (collector "scan_collector_" k) ENew) ks ++
             [SLet (aname fi) (EInt 0); SLet (aname fc) cond;
              SWhile (aname fc) (aname fi) max
                (gen_bindings refs caps (map aname (cg_ins body)) (used_names body) ++ code ++
                 map (fun ko => SPush (collector "scan_collector_" (fst ko)) (aname (snd ko))) (combine ks souts) ++
                 gen_updates fvs louts ++ update_cond ++ [SIncr (aname fi)])])
            (map (fun f => EVar (aname f)) (firstn nv fvs) ++ map (fun ko => gen_scan_value (fst ko) (snd ko)) (combine ks souts))]
        else None))
    | _, _, _ => None
    end.

  (** scan_node.rs:52-309. *)
  Definition gen_scan (ins outs : list arg) (refs : list string) (cfg : scan_cfg) (body : cgraph) (code : list cstmt) : option (list cstmt) :=
    let total := (length ins - length refs)%nat in
    let ns := (total - sc_count cfg)%nat in
    let inits := firstn ns ins in let seqs := firstn (sc_count cfg) (skipn ns ins) in let caps := skipn total ins in
    let states := firstn ns (cg_ins body) in let elements := skipn ns (cg_ins body) in
    let nso := (length (cg_outs body) - ns)%nat in
    let ks := seq 0 nso in
    match seqs with
    | first :: _ =>
        obind (mapo (fun kse => let '(k, (s, e)) := kse in
                 match aty s with
                 | TensorT t => Some (SLet (aname e) (EElement (aname s) (usize (nth k (sc_in_axes cfg) 0%Z)) (Z.eqb (nth k (sc_in_dirs cfg) 0%Z) 1) (tt_rank t - 1)))
                 | _ => None
                 end) (combine (seq 0 (length seqs)) (combine seqs elements))) (fun slices =>
        if Nat.eqb (length outs) (length (cg_outs body)) && (ns <=? length (cg_outs body))%nat &&
           Nat.eqb (length states) ns && Nat.eqb (length elements) (length seqs) then
          Some [SBlock (map aname outs)
            (gen_inits states inits ++
             map (fun k => SLet (collector "scan_output_collector_" k) ENew) ks ++
             [SLet "seq_len" (EDim (aname first) (usize (nth 0 (sc_in_axes cfg) 0%Z)));
              SFor "i" 0 "seq_len"
                (slices ++ gen_bindings refs caps (map aname (cg_ins body)) (used_names body) ++ code ++
                 map (fun so => SSet (aname (fst so)) (EVar (aname (snd so)))) (combine states (firstn ns (cg_outs body))) ++
                 map (fun ko => SPush (collector "scan_output_collector_" (fst ko)) (aname (snd ko))) (combine ks (skipn ns (cg_outs body))))] ++
             flat_map (fun k => (if Z.eqb (nth k (sc_out_dirs cfg) 0%Z) 1 then [SReverse (collector "scan_output_collector_" k)] else []) ++
                                [SLet (collector "scan_output_" k) (EStack (collector "scan_output_collector_" k) (usize (nth k (sc_out_axes cfg) 0%Z)))]) ks)
            (map (fun s => EVar (aname s)) states ++ map (fun k => EVar (collector "scan_output_" k)) ks)]
        else None)
    | [] => None
    end.

  (** subgraph_helper.rs:145-160: the nodes one after the other; if_node.rs:61-128. *)
  Fixpoint gen_cnode (n : cnode) : option (list cstmt) :=
    match n with
    | CLeaf n => option_map (fun s => [s]) (gen_leaf n)
    | CIf ins outs refs th el =>
        match ins with
        | c :: caps =>
            obind (gen_condition c) (fun cond =>
            obind (gen_cgraph th) (fun t => obind (gen_cgraph el) (fun u =>
              let results g := map (fun o => EVar (aname o)) (cg_outs g) in
              Some [SIf (map aname outs) cond (gen_bindings refs caps [] (used_names th) ++ t) (results th)
                                              (gen_bindings refs caps [] (used_names el) ++ u) (results el)])))
        | [] => None
        end
    | CLoop ins outs refs body => obind (gen_cgraph body) (gen_loop ins outs refs body)
    | CScan ins outs refs cfg body => obind (gen_cgraph body) (gen_scan ins outs refs cfg body)
    end
  with gen_cgraph (g : cgraph) : option (list cstmt) :=
    match g with
    | mkCG _ ns _ =>
        (fix go (ns : list cnode) : option (list cstmt) :=
           match ns with
           | [] => Some []
           | n :: r => obind (gen_cnode n) (fun a => obind (go r) (fun b => Some (a ++ b)))
           end) ns
    end.
  Fixpoint gen_cnodes (ns : list cnode) : option (list cstmt) :=
    match ns with
    | [] => Some []
    | n :: r => obind (gen_cnode n) (fun a => obind (gen_cnodes r) (fun b => Some (a ++ b)))
    end.
End Gen.
