(** What ONNX prescribes for the ten reductions, on real numbers.  Nothing here
    mentions the generated code.  A result that is no real number (the
    logarithm of nothing positive, the mean or the maximum of nothing) is not
    defined. *)
From Coq Require Export Reals.
From Verif Require Export Reduce_Spec.
Local Open Scope R_scope.

Notation real := Rdefinitions.R.
Inductive rrop := QSum | QProd | QMax | QMin | QMean | QL1 | QL2 | QSumSquare | QLogSum | QLogSumExp.
Definition rsum (l : list real) : real := fold_right Rplus 0 l.
Definition logarithm (r : real) : option real := if Rlt_dec 0 r then Some (ln r) else None.
Definition of_reals (op : rrop) (l : list real) : option real :=
  match op with
  | QSum => Some (rsum l)
  | QProd => Some (fold_right Rmult 1 l)
  | QMax => match l with [] => None | v :: r => Some (fold_right Rmax v r) end
  | QMin => match l with [] => None | v :: r => Some (fold_right Rmin v r) end
  | QMean => match l with [] => None | _ => Some (rsum l / INR (length l)) end
  | QL1 => Some (rsum (map Rabs l))
  | QL2 => Some (sqrt (rsum (map Rsqr l)))
  | QSumSquare => Some (rsum (map Rsqr l))
  | QLogSum => logarithm (rsum l)
  | QLogSumExp => logarithm (rsum (map exp l))
  end.

Definition rrop_of (ty : string) : option rrop :=
  if String.eqb ty "ReduceSum" then Some QSum
  else if String.eqb ty "ReduceProd" then Some QProd
  else if String.eqb ty "ReduceMax" then Some QMax
  else if String.eqb ty "ReduceMin" then Some QMin
  else if String.eqb ty "ReduceMean" then Some QMean
  else if String.eqb ty "ReduceL1" then Some QL1
  else if String.eqb ty "ReduceL2" then Some QL2
  else if String.eqb ty "ReduceSumSquare" then Some QSumSquare
  else if String.eqb ty "ReduceLogSum" then Some QLogSum
  else if String.eqb ty "ReduceLogSumExp" then Some QLogSumExp
  else None.

(** The node applied to [x]; [rest]: its second input, if it has one. *)
Inductive onnx_real_reduce (n : rnode) (x : tensor real) (rest : list otensor) : tensor real -> Prop :=
| oq_reduce op axes keep z : rrop_of (ntype n) = Some op -> axes_named n rest = Some axes ->
    int_attr n "keepdims" 1%Z = Some keep -> keep = 0%Z \/ keep = 1%Z ->
    axes <> [] \/ int_attr n "noop_with_empty_axes" 0%Z = Some 0%Z ->
    reduces (of_reals op) axes (keep =? 1)%Z x z -> onnx_real_reduce n x rest z.

(** The nodes the theorem is about.  Left out: numbers of which all axes are
    named and dropped (as for integers, Reduce_Props), ReduceLogSumExp of which
    some axes are dropped, and inputs called like the helper variables (both
    fail, see ReduceR_Props); the mean, the maximum and the logarithm of empty
    groups. *)
Definition is_float (d : dtype) : bool := match d with F64 | F32 | F16 | BF16 => true | _ => false end.
Definition helpers (op : rrop) : list string :=
  match op with
  | QL2 | QLogSum => ["input_dtype"]
  | QLogSumExp => ["input_dtype"; "input_shape"]
  | _ => []
  end%string.
Definition needs_elements (op : rrop) : bool := match op with QMax | QMin | QMean | QLogSumExp => true | _ => false end.
Inductive covered_real (n : rnode) (a : arg) (x : tensor real) (rest : list otensor) : Prop :=
| cov_real op t axes keep : rrop_of (ntype n) = Some op -> aty a = TensorT t -> is_float (tt_dtype t) = true ->
    axes_named n rest = Some axes -> int_attr n "keepdims" 1%Z = Some keep ->
    keep = 1%Z \/ (length axes < length (tshape x))%nat ->
    (op = QLogSumExp -> keep = 1%Z \/ axes = []) ->
    ~ In (aname a) (helpers op) ->
    (needs_elements op = true -> prodN (tshape x) <> 0%N) -> covered_real n a x rest.

(** The variable of a tensor argument holds [x]. *)
Definition input_holds (e : string -> option (tensor real)) (a : arg) (x : tensor real) : Prop :=
  e (aname a) = Some x /\ twf x /\ exists t, aty a = TensorT t /\ tt_rank t = N.of_nat (length (tshape x)) /\
  (0 < Z.of_nat (length (tshape x)) <= i64_max)%Z.
(** How a tensor of the program stands for the ONNX value of an argument of
    type [ty]: rank 0 is held as a tensor with one element. *)
Definition held_for (ty : argty) (t z : tensor real) : Prop :=
  match ty with
  | TensorT y => t = z /\ N.of_nat (length (tshape z)) = tt_rank y
  | ScalarTensor _ => tshape z = [] /\ t = mkT [1]%N (tdata z)
  | _ => False
  end.
