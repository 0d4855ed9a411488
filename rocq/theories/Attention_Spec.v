(** Scaled dot-product attention, and the operators it is made of, on tensors
    of real numbers.  Written from the ONNX operator descriptions and from what
    the generated code calls (burn::tensor::module::attention). *)
From Coq Require Export Reals.
From Verif Require Export IR_Model IR_Spec Tensor_Spec.
Local Open Scope N_scope.

Notation rt := (tensor R).
Notation rsem := (string -> list (string * attr) -> nat -> list (option rt) -> option (list rt)).

(** The element at an index, and a tensor given by its elements. *)
Definition rd (x : rt) (idx : list N) : R := match get x idx with Some v => v | None => 0%R end.
Definition mk (s : list N) (f : list N -> R) : rt := mkT s (map f (indices s)).
Definition mk4 (b h m n : N) (f : N -> N -> N -> N -> R) : rt :=
  mk [b; h; m; n] (fun idx => match idx with [i; j; r; c] => f i j r c | _ => 0%R end).

Definition total (n : N) (f : N -> R) : R := fold_right (fun i acc => f i + acc)%R 0%R (upto n).

(** One entry of a softmax over [n] scores. *)
Definition soft (n : N) (f : N -> R) (c : N) : R := (exp (f c) / total n (fun k => exp (f k)))%R.

(** Attention of queries [q] (b,h,m,d), keys [k] (b,h,n,d) and values [v]
    (b,h,n,e): every score is multiplied by [s] and [bias] is added. *)
Definition attended (b h m n d e : N) (s : R) (bias : list N -> R) (q k v : rt) : rt :=
  mk4 b h m e (fun i j r t =>
    total n (fun c =>
      soft n (fun c => total d (fun u => rd q [i; j; r; u] * rd k [i; j; c; u]) * s + bias [i; j; r; c])%R c
      * rd v [i; j; c; t])%R).

(** ** Operators *)
Definition law_matmul (sem : rsem) : Prop := forall attrs o x y b h m k n,
  tshape x = [b; h; m; k] -> tshape y = [b; h; k; n] ->
  sem "MatMul"%string attrs o [Some x; Some y] =
    Some [mk4 b h m n (fun i j r c => total k (fun t => rd x [i; j; r; t] * rd y [i; j; t; c])%R)].

Definition law_softmax (sem : rsem) : Prop := forall attrs o x b h m n,
  tshape x = [b; h; m; n] ->
  In (sget attrs "axis") [None; Some (AInt (-1)); Some (AInt 3)] ->
  sem "Softmax"%string attrs o [Some x] =
    Some [mk4 b h m n (fun i j r c => soft n (fun k => rd x [i; j; r; k]) c)].

(** Transpose swapping the last two dimensions. *)
Definition law_swap (sem : rsem) : Prop := forall attrs o x b h m n,
  tshape x = [b; h; m; n] -> sget attrs "perm" = Some (AInts [0; 1; 3; 2]%Z) ->
  sem "Transpose"%string attrs o [Some x] = Some [mk4 b h n m (fun i j r c => rd x [i; j; c; r])].

Definition law_elementwise (sem : rsem) (ty : string) (op : R -> R -> R) : Prop := forall attrs o x y,
  sem ty attrs o [Some x; Some y] = option_map (fun r => [r]) (elementwise op x y).

(** The value of the bits of a 32-bit float that is a number. *)
Definition f32_real (bits : N) : R :=
  let s := N.testbit bits 31 in
  let e := N.modulo (N.div bits 8388608) 256 in
  let m := N.modulo bits 8388608 in
  let abs := if e =? 0 then (IZR (Z.of_N m) * powerRZ 2 (-149))%R
             else (IZR (Z.of_N (8388608 + m)) * powerRZ 2 (Z.of_N e - 150))%R in
  if s then (- abs)%R else abs.

(** The generated code gives masks of rank 2 and 3 the rank 4 (attention.rs,
    [forward_burn_attention]): (M,N) becomes (1,1,M,N), (X,M,N) becomes
    (X,1,M,N). *)
Definition mask4 (s : list N) : option (list N) :=
  match s with
  | [m; n] => Some [1; 1; m; n]
  | [x; m; n] => Some [x; 1; m; n]
  | [_; _; _; _] => Some s
  | _ => None
  end.
Definition no_bias : list N -> R := fun _ => 0%R.
Definition bias_of (m : rt) (s4 : list N) : list N -> R := fun idx => rd (mkT s4 (tdata m)) (bproj s4 idx).

(** The scale: the attribute, or 1/sqrt(d). *)
Definition scale_is (attrs : list (string * attr)) (d : N) (s : R) : Prop :=
  (exists w, attrs = [("scale"%string, AFloat w)] /\ s = f32_real w) \/
  (attrs = [] /\ s = (/ sqrt (IZR (Z.of_N d)))%R).

Definition law_attention (sem : rsem) : Prop := forall attrs o q k v b h m n d e s,
  tshape q = [b; h; m; d] -> tshape k = [b; h; n; d] -> tshape v = [b; h; n; e] -> scale_is attrs d s ->
  sem "Attention"%string attrs o [Some q; Some k; Some v] = Some [attended b h m n d e s no_bias q k v] /\
  forall mask s4, mask4 (tshape mask) = Some s4 -> bshape [b; h; m; n] s4 = Some [b; h; m; n] ->
    sem "Attention"%string attrs o [Some q; Some k; Some v; Some mask] =
      Some [attended b h m n d e s (bias_of mask s4) q k v].

Definition law_arity (sem : rsem) : Prop := forall ty attrs o vs outs, sem ty attrs o vs = Some outs ->
  (In ty ["MatMul"; "Add"; "Mul"; "Div"]%string -> exists x y, vs = [Some x; Some y]) /\
  (In ty ["Softmax"; "Transpose"]%string -> exists x, vs = [Some x]).

Record attention_laws (sem : rsem) : Prop := {
  al_matmul : law_matmul sem;
  al_softmax : law_softmax sem;
  al_swap : law_swap sem;
  al_add : law_elementwise sem "Add" Rplus;
  al_mul : law_elementwise sem "Mul" Rmult;
  al_div : law_elementwise sem "Div" Rdiv;
  al_attention : law_attention sem;
  al_arity : law_arity sem
}.

(** ** Graphs *)
Definition produced (nodes : list rnode) : list string := flat_map (fun n => map aname (noutputs n)) nodes.

(** Embedded and absent inputs do not carry the name of an output. *)
Definition apart (nodes : list rnode) : Prop :=
  forall n i, In n nodes -> In i (ninputs n) ->
    match asrc i with VStatic _ | VOptional => ~ In (aname i) (produced nodes) | _ => True end.

(** An input whose value is read from the environment. *)
Definition reads (n : rnode) (x : string) : Prop :=
  exists i, In i (ninputs n) /\ aname i = x /\ (asrc i = VConstant \/ asrc i = VDynamic).

(** [l] is a part of [l']: some nodes are left out, the order is kept. *)
Inductive part {A} : list A -> list A -> Prop :=
  | part_nil : part [] []
  | part_skip x l l' : part l l' -> part l (x :: l')
  | part_keep x l l' : part l l' -> part (x :: l) (x :: l').

(** Everything a node reads is given or produced by the nodes that are kept. *)
Definition self_contained {V} (given : string -> option V) (live : list rnode) : Prop :=
  forall n x, In n live -> reads n x -> given x <> None \/ In x (produced live).

(** How many inputs of nodes have the name [x]. *)
Definition uses (nodes : list rnode) (x : string) : nat :=
  length (filter (String.eqb x) (flat_map (fun n => map aname (ninputs n)) nodes)).
