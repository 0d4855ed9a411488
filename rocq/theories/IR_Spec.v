(** What it means to run a graph of the intermediate representation.  The
    meaning of operators is a parameter: [sem type attrs nouts inputs] is the
    list of output values, or [None] when the operator rejects its inputs. *)
From Verif Require Import IR_Model.

Section Run.
  Context {V : Type}.
  Variable sem : string -> list (string * attr) -> nat -> list (option V) -> option (list V).
  Variable static : N -> option V.          (* embedded constants, by data id *)

  Definition env := string -> option V.

  (** The value of an argument: absent, embedded, or read from the
      environment.  [None]: the name is not bound. *)
  Definition arg_eval (e : env) (a : arg) : option (option V) :=
    match asrc a with
    | VOptional => Some None
    | VStatic id => option_map Some (static id)
    | VConstant | VDynamic => option_map Some (e (aname a))
    end.

  Fixpoint args_eval (e : env) (l : list arg) : option (list (option V)) :=
    match l with
    | [] => Some []
    | a :: r =>
        match arg_eval e a, args_eval e r with
        | Some v, Some vs => Some (v :: vs)
        | _, _ => None
        end
    end.

  Definition bind1 (e : env) (x : string) (v : V) : env :=
    fun y => if String.eqb x y then Some v else e y.

  Fixpoint bind (e : env) (xs : list string) (vs : list V) : option env :=
    match xs, vs with
    | [], [] => Some e
    | x :: xs', v :: vs' => bind (bind1 e x v) xs' vs'
    | _, _ => None
    end.

  (** One node: evaluate the inputs, apply the operator, bind the outputs. *)
  Definition node_eval (e : env) (n : rnode) : option env :=
    match args_eval e (ninputs n) with
    | None => None
    | Some vs =>
        match sem (ntype n) (nattrs n) (length (noutputs n)) vs with
        | None => None
        | Some outs => bind e (map aname (noutputs n)) outs
        end
    end.

  Fixpoint run (e : env) (nodes : list rnode) : option env :=
    match nodes with
    | [] => Some e
    | n :: r => match node_eval e n with
                | None => None
                | Some e' => run e' r
                end
    end.
End Run.

(** Static single assignment: every produced name is new. *)
Definition ssa {V} (bound : string -> option V) (nodes : list rnode) : Prop :=
  NoDup (flat_map (fun n => map aname (noutputs n)) nodes) /\
  (forall x, In x (flat_map (fun n => map aname (noutputs n)) nodes) -> bound x = None).
