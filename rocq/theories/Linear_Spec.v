(** Matrix products as ONNX defines them, and which names of a graph are
    defined where.  Nothing here refers to the importer, except the record
    types of the two graph representations. *)
From Verif Require Import IR_Model Tensor_Spec Import_Model Import_Spec.
Local Open Scope N_scope.

(** ** ONNX operators over any element type.
    [dot] is the sum of products of two vectors, in whatever order a backend
    adds them up; [of_f32] reads the bit pattern of an attribute. *)
Section Ops.
  Context {T : Type}.
  Variables (add mul : T -> T -> T) (dot : list T -> list T -> T) (of_f32 : N -> T).

  (** The element at row [i], column [j] of a matrix or of its transpose. *)
  Definition entry (m : tensor T) (tr : bool) (i j : N) : option T :=
    get m (if tr then [j; i] else [i; j]).

  (** Gemm: alpha * A' * B' + beta * C, where A' is A or its transpose, B' is B
      or its transpose, and C is broadcast to the shape of the result. *)
  Definition onnx_gemm (alpha beta : N) (ta tb : bool) (A B : tensor T) (C : option (tensor T)) : option (tensor T) :=
    match tshape A, tshape B with
    | [a0; a1], [b0; b1] =>
        let m := if ta then a1 else a0 in
        let k := if ta then a0 else a1 in
        let k' := if tb then b1 else b0 in
        let n := if tb then b0 else b1 in
        if k =? k' then
          let product i j := lift2 dot (mapo (fun l => entry A ta i l) (upto k)) (mapo (fun l => entry B tb l j) (upto k)) in
          let scaled i j := option_map (mul (of_f32 alpha)) (product i j) in
          match C with
          | None => tab [m; n] (fun idx => scaled (nth 0 idx 0) (nth 1 idx 0))
          | Some c =>
              match bshape [m; n] (tshape c) with
              | Some [m'; n'] =>
                  if ((m' =? m) && (n' =? n))%bool then
                    tab [m; n] (fun idx => lift2 add (scaled (nth 0 idx 0) (nth 1 idx 0))
                                             (option_map (mul (of_f32 beta)) (get c (bproj (tshape c) idx))))
                  else None
              | _ => None
              end
          end
        else None
    | _, _ => None
    end.

  (** The attributes of a Gemm and their defaults. *)
  Definition float_attr (l : list (string * attr)) (k : string) : N :=
    match sget l k with Some (AFloat b) => b | _ => f32_one end.
  Definition flag_attr (l : list (string * attr)) (k : string) : bool :=
    match sget l k with Some (AInt z) => negb (Z.eqb z 0) | _ => false end.
  Definition gemm_of (l : list (string * attr)) : tensor T -> tensor T -> option (tensor T) -> option (tensor T) :=
    onnx_gemm (float_attr l "alpha") (float_attr l "beta") (flag_attr l "transA") (flag_attr l "transB").

  (** MatMul of a tensor [x] with a matrix [w]: the last dimension of [x] is
      multiplied with the rows of [w]; the other dimensions of [x] (none, if it
      is a vector) stay. *)
  Definition onnx_matmul (x w : tensor T) : option (tensor T) :=
    match rev (tshape x), tshape w with
    | k :: s, [k'; n] =>
        if k =? k' then
          tab (rev s ++ [n]) (fun idx =>
            lift2 dot (mapo (fun l => get x (removelast idx ++ [l])) (upto k))
                      (mapo (fun l => get w [l; last idx 0]) (upto k)))
        else None
    | _, _ => None
    end.
End Ops.

(** ** Definedness of names *)

(** Every input of an ONNX node is omitted, or defined before it. *)
Fixpoint closed (known : list string) (l : list pnode) : Prop :=
  match l with
  | [] => True
  | p :: r => (forall x, In x (p_in p) -> x = ""%string \/ In x known) /\ closed (p_out p ++ known) r
  end.
Definition closed_graph (g : pgraph) : Prop := closed (in_names_of g ++ init_names_of g) (pg_nodes g).

(** The names an imported node reads: not those of embedded values and of
    omitted inputs. *)
Definition reads (l : list arg) : list string :=
  map aname (filter (fun a => (is_dynamic a || is_constant a)%bool) l).

(** Every name an imported node reads is defined before it. *)
Fixpoint closed_nodes (known : list string) (ns : list rnode) : Prop :=
  match ns with
  | [] => True
  | n :: r => incl (reads (ninputs n)) known /\ closed_nodes (map aname (noutputs n) ++ known) r
  end.
