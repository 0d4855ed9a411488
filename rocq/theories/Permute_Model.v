(** Model of crates/onnx-ir/src/simplify/permute_reshape.rs. *)
From Verif Require Import IR_Model.
Local Open Scope Z_scope.

(** [Argument::value] followed by [scalar_i64] (ir/tensor_data_ext.rs:73-88)
    is a parameter: the first element of constant integer data.  An outer
    [None] is a panic. *)
Section Permute.
  Variable scalar_i64 : arg -> option Z.

  (** permute_reshape.rs:16-22: the producer of a name, the last one if there
      are several. *)
  Definition producer (nodes : list rnode) (x : string) : option rnode :=
    find (fun n => mem_str x (map aname (noutputs n))) (rev nodes).

  (** permute_reshape.rs:83-128: one input of the Concat: the index and the
      name of the tensor whose shape is taken.  [len] is the number of inputs
      of the Concat. *)
  Definition chain (nodes : list rnode) (len : nat) (i : arg) : option (option (Z * string)) :=
    match producer nodes (aname i) with
    | None => Some None
    | Some unsqueeze =>
        if negb (String.eqb (ntype unsqueeze) "Unsqueeze") then Some None else
        match ninputs unsqueeze with
        | [] => None
        | u :: _ =>
            match producer nodes (aname u) with
            | None => Some None
            | Some gather =>
                if negb (String.eqb (ntype gather) "Gather") then Some None else
                match get_attr gather "axis" with
                | Some (AInt 0) | None =>
                    match nth_error (ninputs gather) 1 with
                    | None => Some None
                    | Some index =>
                        match scalar_i64 index with
                        | None => Some None
                        | Some z =>
                            let z' := if z <? 0 then z + Z.of_nat len else z in
                            match ninputs gather with
                            | [] => None
                            | g :: _ =>
                                match producer nodes (aname g) with
                                | None => Some None
                                | Some shape =>
                                    if negb (String.eqb (ntype shape) "Shape") then Some None else
                                    match ninputs shape with
                                    | [] => None
                                    | d :: _ => Some (Some (z', aname d))
                                    end
                                end
                            end
                        end
                    end
                | Some (AInt _) => Some None
                | Some _ => None
                end
            end
        end
    end.

  (** permute_reshape.rs:80-129: the loop over the inputs of the Concat. *)
  Fixpoint chains (nodes : list rnode) (len : nat) (data : option string) (l : list arg)
      : option (option (list Z * option string)) :=
    match l with
    | [] => Some (Some ([], data))
    | i :: r =>
        match chain nodes len i with
        | None => None
        | Some None => Some None
        | Some (Some (z, d)) =>
            match (match data with None => true | Some d' => String.eqb d' d end) with
            | false => Some None
            | true =>
                match chains nodes len (Some d) r with
                | Some (Some (p, d')) => Some (Some (z :: p, d'))
                | x => x
                end
            end
        end
    end.

  (** permute_reshape.rs:137-145: every index once. *)
  Fixpoint is_perm (rank : nat) (seen p : list Z) : bool :=
    match p with
    | [] => true
    | z :: r => ((0 <=? z) && (z <? Z.of_nat rank) && negb (existsb (Z.eqb z) seen) && is_perm rank (z :: seen) r)%bool
    end.

  (** permute_reshape.rs:63-148 [extract_permute_pattern]; called when there
      are at least two inputs. *)
  Definition extract_permute_pattern (nodes : list rnode) (n : rnode) : option (option (list Z)) :=
    match ninputs n with
    | x :: s :: _ =>
        match producer nodes (aname s) with
        | None => Some None
        | Some concat =>
            if negb (String.eqb (ntype concat) "Concat") then Some None else
            match chains nodes (length (ninputs concat)) None (ninputs concat) with
            | None => None
            | Some None => Some None
            | Some (Some (p, d)) =>
                match d with
                | Some d' => if (String.eqb d' (aname x) && is_perm (length p) [] p)%bool then Some (Some p) else Some None
                | None => Some None
                end
            end
        end
    | _ => Some None
    end.

  (** permute_reshape.rs:27-58: the replacement of one node; the patterns are
      all looked for before the first node is replaced. *)
  Definition permute_node (nodes : list rnode) (n : rnode) : option rnode :=
    if String.eqb (ntype n) "Reshape" then
      match extract_permute_pattern nodes n with
      | None => None
      | Some None => Some n
      | Some (Some p) =>
          match ninputs n with
          | x :: _ => Some (mkNode "Transpose" (nname n) [x] (noutputs n) [("perm"%string, AInts p)])
          | [] => None
          end
      end
    else Some n.

  Fixpoint permute_all (nodes l : list rnode) : option (list rnode) :=
    match l with
    | [] => Some []
    | n :: r => match permute_node nodes n, permute_all nodes r with
                | Some n', Some r' => Some (n' :: r')
                | _, _ => None
                end
    end.

  (** permute_reshape.rs:15-58 [simplify_permute_reshape]. *)
  Definition simplify_permute_reshape (nodes : list rnode) : option (list rnode) := permute_all nodes nodes.
End Permute.
