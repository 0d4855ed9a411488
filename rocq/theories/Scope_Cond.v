(** Conditions on the graphs given to the code generator. *)
From Verif Require Export Scope_Spec Scope_Model.

Definition acc_arg (c : access) : arg := match c with Owned a | Ident a => a end.
Definition accesses (n : cnode) : list access := match n with Plain _ _ acc => acc | _ => [] end.
Definition times (x : string) (l : list arg) : nat := count_occ string_dec (map aname l) x.
Definition out_of (n : cnode) : list string := map aname (c_outputs n).

(** A graph without control flow. *)
Record legal_flat (g : cgraph) : Prop := {
  lf_plain : forall n, In n (gnodes g) -> exists ins outs acc, n = Plain ins outs acc;
  (* every name is defined once *)
  lf_ssa : NoDup (map aname (gins g) ++ flat_map out_of (gnodes g));
  (* and before it is used *)
  lf_order : forall pre n post a, gnodes g = pre ++ n :: post ->
    In a (map acc_arg (accesses n)) \/ (In a (c_inputs n) /\ registered a = true) ->
    In (aname a) (map aname (gins g) ++ flat_map out_of pre);
  (* a node reads an argument at most as often as it is listed as input *)
  lf_covered : forall n x, In n (gnodes g) ->
    (times x (filter tracked (map acc_arg (accesses n))) <= times x (filter registered (c_inputs n)))%nat;
  (* a name stands for a tensor everywhere or nowhere *)
  lf_kind : forall n a b, In n (gnodes g) ->
    In a (map acc_arg (accesses n)) \/ In a (filter registered (c_inputs n)) \/ In a (gouts g) ->
    In b (gins g) \/ (exists m, In m (gnodes g) /\ In b (c_outputs m)) ->
    aname a = aname b -> tracked a = tracked b;
  (* the outputs are defined *)
  lf_outputs : forall a, In a (gouts g) -> exists b, aname b = aname a /\ tracked b = tracked a /\
    (In b (gins g) \/ exists m, In m (gnodes g) /\ In b (c_outputs m))
}.

(** No tensor is returned twice, and scalars returned as native numbers are
    not also read by a node. *)
Definition outputs_once (g : cgraph) : Prop := NoDup (map aname (filter tracked (gouts g))).
Definition scalar_outputs_unread (g : cgraph) : Prop :=
  forall a n c, In a (gouts g) -> is_scalar_tensor a = true -> In n (gnodes g) -> In c (accesses n) -> aname (acc_arg c) <> aname a.

(** Every registered input is read, by [scope.arg], as often as it is listed. *)
Definition reads_all (g : cgraph) : Prop :=
  forall n, In n (gnodes g) ->
    (forall a, In (Ident a) (accesses n) -> tracked a = false) /\
    (forall x, times x (filter tracked (map acc_arg (accesses n))) = times x (filter registered (c_inputs n))).

(** Well-formed graphs, also with control flow: every name is new where it is
    defined and known where it is used, every captured value is known under its
    name outside, and plain nodes read what they list. *)
Fixpoint distinct (l : list string) : bool := match l with [] => true | x :: r => (negb (mem_str x r) && distinct r)%bool end.
Definition fresh_in (known : list string) (l : list arg) : bool :=
  (forallb (fun a => negb (mem_str (aname a) known)) l && distinct (map aname l))%bool.
Definition known_in (known : list string) (l : list arg) : bool := forallb (fun a => (is_optional a || mem_str (aname a) known)%bool) l.
Fixpoint well_node (known : list string) (n : cnode) : bool :=
  let nodes := fix nodes (known : list string) (l : list cnode) : bool :=
    match l with
    | [] => true
    | m :: r => (well_node known m && fresh_in known (c_outputs m) && nodes (known ++ map aname (c_outputs m)) r)%bool
    end in
  let graph (known : list string) (g : cgraph) :=
    match g with
    | CGraph gi gn go =>
        let k := known ++ map aname gi in
        (fresh_in known gi && nodes k gn && known_in (k ++ flat_map out_of gn) go)%bool
    end in
  match n with
  | Plain ins outs acc =>
      (known_in known ins &&
       forallb (fun c => (times (aname (acc_arg c)) (map acc_arg acc) <=? times (aname (acc_arg c)) ins)%nat) acc)%bool
  | IfNode cond outer outs refs thn els =>
      (known_in known (cond :: outer) && (length outer =? length refs)%nat && graph (known ++ refs) thn && graph (known ++ refs) els)%bool
  | LoopNode count cond init outer outs refs body =>
      (known_in known (count :: cond :: init ++ outer) && (length outer =? length refs)%nat && graph (known ++ refs) body &&
       (length (gins body) =? 2 + length init)%nat && (length (gouts body) <=? 1 + length outs)%nat &&
       (1 + length init <=? length (gouts body))%nat)%bool
  | ScanNode init seqs outer outs refs body =>
      (known_in known (init ++ seqs ++ outer) && (length outer =? length refs)%nat && graph (known ++ refs) body &&
       (length (gins body) =? length init + length seqs)%nat && (length (gouts body) =? length outs)%nat &&
       (length init <=? length outs)%nat && (1 <=? length seqs)%nat)%bool
  end.
Fixpoint well_nodes (known : list string) (l : list cnode) : bool :=
  match l with
  | [] => true
  | m :: r => (well_node known m && fresh_in known (c_outputs m) && well_nodes (known ++ map aname (c_outputs m)) r)%bool
  end.
Definition well_formed (g : cgraph) : bool :=
  (fresh_in [] (gins g) && well_nodes (map aname (gins g)) (gnodes g) &&
   known_in (map aname (gins g) ++ flat_map out_of (gnodes g)) (gouts g))%bool.

(** ** Graphs with If nodes *)
(** The names a branch reads or returns. *)
Definition mentioned (b : cgraph) : list string :=
  filter (fun x => negb (String.eqb x "")) (flat_map (fun n => map aname (c_inputs n)) (gnodes b) ++ map aname (gouts b)).
(** What a branch takes from the enclosing graph, under the names it uses. *)
Definition taken (refs : list string) (outer : list arg) (b : cgraph) : list (string * arg) :=
  filter (fun p => mem_str (fst p) (mentioned b)) (combine refs outer).
Definition captured (refs : list string) (outer : list arg) (b : cgraph) : list arg :=
  map (fun p => mkArg (fst p) (aty (snd p)) VDynamic) (taken refs outer b).
(** The captured names that are not the names of the enclosing graph, and the
    names the branch defines. *)
Definition locals (refs : list string) (outer : list arg) (b : cgraph) : list string :=
  map fst (filter (fun p => negb (String.eqb (fst p) (aname (snd p)))) (taken refs outer b)) ++ flat_map out_of (gnodes b).

(** ** Graphs with Loop nodes *)
(** A Loop body has inputs of its own: they hide the captured names. *)
Definition loop_taken (refs : list string) (outer : list arg) (b : cgraph) : list (string * arg) :=
  filter (fun p => (mem_str (fst p) (mentioned b) && negb (mem_str (fst p) (map aname (gins b))))%bool) (combine refs outer).
Definition loop_captured (refs : list string) (outer : list arg) (b : cgraph) : list arg :=
  map (fun p => mkArg (fst p) (aty (snd p)) VDynamic) (loop_taken refs outer b).
Definition loop_locals (refs : list string) (outer : list arg) (b : cgraph) : list string :=
  map aname (gins b) ++
  map fst (filter (fun p => negb (String.eqb (fst p) (aname (snd p)))) (loop_taken refs outer b)) ++ flat_map out_of (gnodes b).
Definition present (a : arg) : list arg := if is_optional a then [] else [a].

(** The names that are defined inside a node: in the branches of an If or the
    body of a Loop or Scan, and in the nodes nested in them. *)
Fixpoint node_locals (n : cnode) : list string :=
  let nested b := match b with CGraph _ gn _ => flat_map node_locals gn end in
  match n with
  | Plain _ _ _ => []
  | IfNode _ outer _ refs thn els => (locals refs outer thn ++ nested thn) ++ (locals refs outer els ++ nested els)
  | LoopNode _ _ _ outer _ refs body => loop_locals refs outer body ++ nested body
  | ScanNode _ _ outer _ refs body => loop_locals refs outer body ++ nested body
  end.
Definition new_names (n : cnode) : list string := out_of n ++ node_locals n.

(** How often a tensor is listed as an input of the nodes or returned. *)
Definition later_uses (g : cgraph) (post : list cnode) (x : string) : nat :=
  (times x (filter registered (flat_map c_inputs post)) +
   times x (filter (fun a => match aty a with TensorT _ => true | _ => false end) (gouts g)))%nat.

(** How often a node reads a tensor of the enclosing graph.  A branch or a
    body reads what it captures; if the nodes in it read the tensor more often than they list
    it, that counts too. *)
Fixpoint takes (n : cnode) (x : string) : nat :=
  let nested b := match b with CGraph gi gn go => (fold_right (fun m k => takes m x + k) 0 gn - later_uses (CGraph gi gn go) gn x)%nat end in
  match n with
  | Plain _ _ acc => times x (filter tracked (map acc_arg acc))
  | IfNode cond outer _ refs thn els =>
      (times x (filter tracked [cond]) + (times x (filter tracked (map snd (taken refs outer thn))) + nested thn) +
       (times x (filter tracked (map snd (taken refs outer els))) + nested els))%nat
  | LoopNode _ cond _ outer _ refs body =>
      (times x (filter tracked (present cond)) + (times x (filter tracked (map snd (loop_taken refs outer body))) + nested body))%nat
  | ScanNode _ _ outer _ refs body => (times x (filter tracked (map snd (loop_taken refs outer body))) + nested body)%nat
  end.
Definition read_by (n : cnode) : list arg :=
  match n with
  | Plain _ _ acc => map acc_arg acc
  | IfNode cond outer _ _ _ _ => cond :: outer
  | LoopNode count cond init outer _ _ _ => present count ++ present cond ++ init ++ outer
  | ScanNode init seqs outer _ _ _ => init ++ seqs ++ outer
  end.
(** The initial values of the carried variables of a Loop and of the states of a Scan. *)
Definition initial (n : cnode) : list arg := match n with LoopNode _ _ init _ _ _ _ => init | ScanNode init _ _ _ _ _ => init | _ => [] end.

(** The conditions on the nodes of a graph, seen from outside. *)
Record legal_level (g : cgraph) : Prop := {
  (* every name is defined once in the graph and its subgraphs *)
  li_ssa : NoDup (map aname (gins g) ++ flat_map new_names (gnodes g));
  (* and before it is used *)
  li_order : forall pre n post a, gnodes g = pre ++ n :: post -> In a (read_by n) \/ (In a (c_inputs n) /\ registered a = true) ->
    In (aname a) (map aname (gins g) ++ flat_map out_of pre);
  (* plain nodes read an argument at most as often as they list it; tensors that an If, Loop or Scan node reads are listed *)
  li_covered : forall n x, In n (gnodes g) ->
    match n with
    | Plain ins _ acc => times x (filter tracked (map acc_arg acc)) <= times x (filter registered ins)
    | _ => forall a, In a (read_by n) -> tracked a = true -> registered a = true
    end%nat;
  (* a tensor that an If node takes more often than it lists it (in both branches) is used at most once afterwards *)
  li_both : forall pre n post x, gnodes g = pre ++ n :: post ->
    (takes n x <= times x (filter registered (c_inputs n)) \/ later_uses g post x <= 1)%nat;
  (* a tensor that a Loop or Scan starts with is used nowhere else from there on *)
  li_init : forall pre n post a, gnodes g = pre ++ n :: post -> In a (initial n) -> tracked a = true ->
    (times (aname a) (filter registered (c_inputs n)) + later_uses g post (aname a) <= 1)%nat;
  (* a name stands for a tensor everywhere or nowhere *)
  li_kind : forall n a b, In n (gnodes g) ->
    In a (read_by n) \/ In a (filter registered (c_inputs n)) \/ In a (gouts g) ->
    In b (gins g) \/ (exists m, In m (gnodes g) /\ In b (c_outputs m)) ->
    aname a = aname b -> tracked a = tracked b;
  (* the outputs are defined *)
  li_outputs : forall a, In a (gouts g) -> exists b, aname b = aname a /\ tracked b = tracked a /\
    (In b (gins g) \/ exists m, In m (gnodes g) /\ In b (c_outputs m))
}.

(** Scalars returned as native numbers are not also read by a node. *)
Definition scalars_unread (g : cgraph) : Prop :=
  forall a n b, In a (gouts g) -> is_scalar_tensor a = true -> In n (gnodes g) -> In b (read_by n) -> aname b <> aname a.

(** A branch is a legal graph whose inputs are the captured values, and shapes
    are captured under their own name. *)
Definition legal_branch (refs : list string) (outer : list arg) (b : cgraph) : Prop :=
  gins b = [] /\
  (let g := CGraph (captured refs outer b) (gnodes b) (gouts b) in legal_level g /\ outputs_once g /\ scalars_unread g) /\
  forall x o r, In (x, o) (taken refs outer b) -> aty o = ShapeT r -> x = aname o.

(** A Loop whose body is a legal graph; the inputs of the
    body are the number of the iteration, the condition and the carried values,
    its outputs the condition, the carried values and the collected values. *)
Record legal_loop (count cond : arg) (init outer : list arg) (refs : list string) (b : cgraph) : Prop := {
  ll_refs : length refs = length outer;
  ll_ins : length (gins b) = (2 + length init)%nat;
  ll_outs : (1 + length init <= length (gouts b))%nat;
  (* the trip count, if any, is a number *)
  ll_count : is_optional count = true \/ tracked count = false;
  (* and so are the number of the iteration and the condition in the body *)
  ll_native : forall a, In a (firstn 2 (gins b)) -> tracked a = false;
  ll_body : let g := CGraph (gins b ++ loop_captured refs outer b) (gnodes b) (gouts b) in legal_level g /\ scalars_unread g;
  ll_shape : forall x o r, In (x, o) (loop_taken refs outer b) -> aty o = ShapeT r -> x = aname o;
  (* no tensor becomes the next value of two inputs *)
  ll_once : NoDup (map aname (filter tracked (firstn (1 + length init) (gouts b))));
  (* an input that is returned stays in its place *)
  ll_place : forall k a, nth_error (firstn (1 + length init) (gouts b)) k = Some a -> tracked a = true ->
    In (aname a) (map aname (gins b)) -> nth_error (map aname (gins b)) (S k) = Some (aname a)
}.

(** A Scan whose body is a legal graph; the inputs of the
    body are the states and the elements of the sequences, its outputs the next
    states and the collected values. *)
Record legal_scan (init seqs outer outs : list arg) (refs : list string) (b : cgraph) : Prop := {
  ls_refs : length refs = length outer;
  ls_ins : length (gins b) = (length init + length seqs)%nat;
  ls_outs : length (gouts b) = length outs /\ (length init <= length outs)%nat;
  (* there is a sequence, and sequences are tensors *)
  ls_seqs : seqs <> [] /\ forall a, In a seqs -> exists t, aty a = TensorT t;
  ls_body : let g := CGraph (gins b ++ loop_captured refs outer b) (gnodes b) (gouts b) in legal_level g /\ scalars_unread g;
  ls_shape : forall x o r, In (x, o) (loop_taken refs outer b) -> aty o = ShapeT r -> x = aname o;
  (* no tensor is collected twice, and no state is collected as it came in *)
  ls_collected : NoDup (map aname (filter tracked (skipn (length init) (gouts b)))) /\
    forall a, In a (skipn (length init) (gouts b)) -> tracked a = true -> ~ In (aname a) (map aname (firstn (length init) (gins b)));
  (* if nothing is collected: no tensor becomes the next value of two states,
     and a state that is returned stays in its place *)
  ls_states : length (gouts b) = length init -> NoDup (map aname (filter tracked (gouts b))) /\
    forall k a, nth_error (gouts b) k = Some a -> tracked a = true ->
      In (aname a) (map aname (firstn (length init) (gins b))) -> nth_error (map aname (gins b)) k = Some (aname a);
  (* the names of the body are not those of the variables of the generator *)
  ls_names : forall a, In a (firstn (length init) (gins b)) -> aname a <> "i"%string /\ aname a <> "seq_len"%string /\ forall k, aname a <> stacked k;
  ls_collectors : forall x k, In x (map aname (gins b) ++ mentioned b ++ flat_map out_of (gnodes b)) -> x <> collector k
}.

(** Plain nodes, and If, Loop and Scan nodes with legal branches and bodies, in
    which there are legal nodes in turn. *)
Fixpoint legal_node (n : cnode) : Prop :=
  let nested b := match b with CGraph _ gn _ => fold_right (fun m P => legal_node m /\ P) True gn end in
  match n with
  | Plain _ _ _ => True
  | IfNode _ outer _ refs thn els =>
      length refs = length outer /\ (legal_branch refs outer thn /\ nested thn) /\ (legal_branch refs outer els /\ nested els)
  | LoopNode count cond init outer _ refs body => legal_loop count cond init outer refs body /\ nested body
  | ScanNode init seqs outer outs refs body => legal_scan init seqs outer outs refs body /\ nested body
  end.
Definition legal_flow (g : cgraph) : Prop := legal_level g /\ forall n, In n (gnodes g) -> legal_node n.
