(** Names in Rust files: paths, what a [use] line brings into scope, and orders
    of lines.  Nothing here refers to the generator. *)
From Coq Require Import OrderedTypeEx.
From Verif Require Import IR_Model.
Local Open Scope string_scope.
Local Open Scope list_scope.

(** The segments of a path, which are separated by [::]. *)
Fixpoint split_path (cur : string) (s : string) : list string :=
  match s with
  | EmptyString => [cur]
  | String ":" (String ":" r) => cur :: split_path "" r
  | String c r => split_path (cur ++ String c "")%string r
  end.
Definition segments (s : string) : list string := split_path "" s.

(** The name a [use] of a path brings into scope. *)
Definition brings (path : string) : string := last (segments path) "".

Definition letter (c : ascii) : bool :=
  let n := N_of_ascii c in
  (((65 <=? n) && (n <=? 90)) || ((97 <=? n) && (n <=? 122)) || (n =? 95))%N%bool.
Definition digit (c : ascii) : bool := let n := N_of_ascii c in ((48 <=? n) && (n <=? 57))%N%bool.
Fixpoint all_chars (p : ascii -> bool) (s : string) : bool :=
  match s with EmptyString => true | String c r => p c && all_chars p r end.
Definition identifier (s : string) : bool :=
  match s with EmptyString => false | String c r => letter c && all_chars (fun d => letter d || digit d) r end.
(** A path that the Rust parser accepts. *)
Definition is_path (s : string) : bool := forallb identifier (segments s).

(** What a file can name without a [use]: the prelude of Burn that every
    generated file takes in, and the crates a user of Burn has. *)
Definition prelude : list string := ["Tensor"; "Int"; "Bool"; "Float"; "TensorData"; "Shape"; "Module"; "Backend"].
Definition crates : list string := ["burn"; "burn_store"; "core"; "std"].

(** A name is in scope in a file with given [use] lines. *)
Definition in_scope (lines : list string) (x : string) : Prop :=
  In x prelude \/ In x crates \/ exists p, In p lines /\ brings p = x.

(** In strictly increasing order of the bytes. *)
Definition increasing (l : list string) : Prop := Sorted.StronglySorted String_as_OT.lt l.

(** Nodes of a graph, with the graphs inside them; the kinds are those that the
    generator's [use] lines depend on. *)
Inductive act := Sigmoid | Tanh | Relu | HardSigmoid | LeakyRelu | Softplus.
Inductive ikind :=
| KAvgPool1d | KAvgPool2d | KMaxPool1d | KMaxPool2d
| KGlobalAvg (rank : nat)
| KConv1d | KConv2d | KConv3d | KConvT1d | KConvT2d | KConvT3d | KDeform
| KBatchNorm (static : bool) | KGroupNorm | KInstanceNorm | KLayerNorm
| KLinear (transposed : bool) | KPRelu | KDropout
| KLstm (gate cell hidden : act) (both_ways initial : bool)
| KRnn (hidden : act) (both_ways initial : bool)
| KRandom | KBernoulli | KLogSoftmax | KAttention (by_burn : bool)
| KCast (shape_to_tensor to_bool : bool) | KReshape (shape_to_tensor : bool) | KCumSum (exclusive : bool)
| KIf | KLoop (collects scalars : bool) | KScan
| KConstHalf | KGatherShape
| KOther.
Inductive inode := INode (k : ikind) (subs : list (list inode)).

(** Only control flow has graphs inside. *)
Definition has_graphs (k : ikind) : bool := match k with KIf | KLoop _ _ | KScan => true | _ => false end.
Fixpoint shaped (n : inode) : Prop :=
  match n with
  | INode k subs => (has_graphs k = false -> subs = [])
      /\ fold_right (fun l p => fold_right (fun m q => shaped m /\ q) True l /\ p) True subs
  end.

(** Global pooling exists for inputs of rank three and four. *)
Fixpoint supported (n : inode) : Prop :=
  match n with
  | INode k subs => (forall r, k = KGlobalAvg r -> r = 3 \/ r = 4)
      /\ fold_right (fun l p => fold_right (fun m q => supported m /\ q) True l /\ p) True subs
  end.
