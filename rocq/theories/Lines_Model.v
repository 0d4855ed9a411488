(** The code emitted for ArgMax, ArgMin, Hardmax, Softmax and LogSoftmax:
    crates/burn-onnx/src/burn/node/{argmax,argmin,hardmax,softmax,log_softmax}.rs. *)
From Verif Require Export RankOps_Model ShapeRun_Model.
From Verif Require Import TensorRun_Model.
From Verif Require Export Lines_Spec.
Import Lines_Spec Tensor_Spec.
Local Open Scope N_scope.

(** ** The emitted statements *)
Inductive lcode :=
| LArgKeep (mx : bool) (x : string) (axis : N)                    (* x.argmax(axis) *)
| LArgSqueeze (mx : bool) (x : string) (axis rank : N)            (* let argmax_result = ..; argmax_result.squeeze_dim::<rank>(axis) *)
| LArgOne (mx : bool) (x : string) (axis : N)                     (* x.argmax(axis).reshape([1]) *)
| LArgNative (mx : bool) (x : string) (axis : N)                  (* let argmax_result = ..; argmax_result.into_scalar() *)
| LHardmax (x : string) (axis : N)
| LSoftmax (x : string) (axis : N)
| LLogSoftmax (x : string) (axis : N).

(** argmax.rs:12-52; argmin.rs:12-52 is the same code with [argmin]. *)
Definition gen_arg (mx : bool) (n : rnode) : option lcode :=
  match arg_config n, ninputs n, noutputs n with
  | IOk (axis, keep), i :: _, o :: _ =>
      match aty o with
      | TensorT t => Some (if keep then LArgKeep mx (aname i) axis else LArgSqueeze mx (aname i) axis (tt_rank t))
      | ScalarTensor _ => Some (LArgOne mx (aname i) axis)
      | ScalarNative _ => Some (LArgNative mx (aname i) axis)
      | ShapeT _ => None
      end
  | _, _, _ => None
  end.
(** crates/onnx-ir/src/node/softmax.rs:73-105, log_softmax.rs:88-122 and
    hardmax.rs:65-91: the axis.  The last one given wins; a map has each key once. *)
Definition line_axis (opset : N) (n : rnode) : ires N :=
  match ninputs n with
  | i :: _ =>
      match aty i with
      | TensorT t => ibind (attr_i64_or n "axis" (if opset <? 13 then 1%Z else (-1)%Z)) (fun a => IOk (norm_axis (tt_rank t) a))
      | _ => IErr
      end
  | [] => IPanic
  end.
(** softmax.rs:12-20, log_softmax.rs:12-20, hardmax.rs:12-29. *)
Definition gen_line (op : string -> N -> lcode) (opset : N) (n : rnode) : option lcode :=
  match line_axis opset n, ninputs n with IOk a, i :: _ => Some (op (aname i) a) | _, _ => None end.

(** ** Burn's methods, as documented; [None] is a panic. *)
(** A function of the lines along a dimension. *)
Definition b_lines {A B} (f : list A -> option (list B)) (size : N -> N) (axis : N) (x : tensor A) : option (tensor B) :=
  let a := N.to_nat axis in
  match skipn a (tshape x) with
  | d :: Q => tab (firstn a (tshape x) ++ size d :: Q) (fun idx =>
      obind (line x d (firstn a idx) (skipn (S a) idx)) (fun l => obind (f l) (fun m => nth_error m (N.to_nat (nth a idx 0)))))
  | [] => None
  end.
(** The first of the greatest. *)
Section Arg.
  Context {T : Type} (le : T -> T -> bool).
  Fixpoint best (v : T) (i : nat) (at_ : nat) (l : list T) : nat :=
    match l with [] => i | w :: r => if le w v then best v i (S at_) r else best w at_ (S at_) r end.
  Definition best_line (l : list T) : option (list Z) := match l with [] => None | v :: r => Some [Z.of_nat (best v 0 1 r)] end.
  Definition b_arg (axis : N) (x : tensor T) : option (tensor Z) := b_lines best_line (fun _ => 1) axis x.
End Arg.
(** [scatter]: each update in turn is combined with the element its index points
    to; the other coordinates are those of the update. *)
Definition put {A} (x : tensor A) (t : list N) (v : A) : tensor A := mkT (tshape x) (set_nth (tdata x) (N.to_nat (offset (tshape x) t)) v).
Definition b_target (axis : N) (ix : tensor Z) (s : list N) (j : list N) : option (list N) :=
  let a := N.to_nat axis in
  match get ix j, nth_error s a with
  | Some i, Some d => if ((0 <=? i) && (i <? Z.of_N d))%Z then Some (firstn a j ++ Z.to_N i :: skipn (S a) j) else None
  | _, _ => None
  end.
(** The check of [gather] and [scatter]: the dimensions of the indices are those
    of the tensor, but for the one at the axis. *)
Definition same_but (axis : N) (s t : list N) : bool :=
  let a := N.to_nat axis in
  (Nat.eqb (length s) (length t) && (a <? length s)%nat && (if list_eq_dec N.eq_dec (firstn a s) (firstn a t) then true else false) &&
   (if list_eq_dec N.eq_dec (skipn (S a) s) (skipn (S a) t) then true else false))%bool.
Definition b_scatter {A} (op : A -> A -> A) (axis : N) (ix : tensor Z) (u x : tensor A) : option (tensor A) :=
  if (same_but axis (tshape x) (tshape ix) && (if list_eq_dec N.eq_dec (tshape u) (tshape ix) then true else false))%bool then
    fold_left (fun acc j => obind acc (fun y => obind (b_target axis ix (tshape x) j) (fun t =>
                 obind (get u j) (fun v => obind (get y t) (fun w => Some (put y t (op w v)))))))
              (indices (tshape ix)) (Some x)
  else None.
Definition b_fill {A} (s : list N) (v : A) : tensor A := mkT s (repeat v (N.to_nat (prodN s))).

(** ** Running a statement: the variables after it. *)
Definition lset {T} (e : lenv T) (x : string) (v : lval T) : lenv T := fun y => if String.eqb y x then Some v else e y.
Definition helper (mx : bool) : string := if mx then "argmax_result" else "argmin_result".
Section Exec.
  Context {T : Type} (le : T -> T -> bool) (zero one : T) (add : T -> T -> T).
  Variables softmax log_softmax : list T -> list T.
  Definition order (mx : bool) : T -> T -> bool := if mx then le else flipped le.
  Definition ltens (e : lenv T) (x : string) : option (tensor T) := match e x with Some (LT t) => Some t | _ => None end.
  Definition lexec (e : lenv T) (out : string) (c : lcode) : option (lenv T) :=
    match c with
    | LArgKeep mx x a => obind (ltens e x) (fun t => obind (b_arg (order mx) a t) (fun r => Some (lset e out (LI r))))
    | LArgSqueeze mx x a rank => obind (ltens e x) (fun t => obind (b_arg (order mx) a t) (fun r =>
        obind (b_squeeze_dims rank [Z.of_N a] r) (fun s => Some (lset (lset e (helper mx) (LI r)) out (LI s)))))
    | LArgOne mx x a => obind (ltens e x) (fun t => obind (b_arg (order mx) a t) (fun r =>
        obind (b_reshape [1] r) (fun s => Some (lset e out (LI s)))))
    | LArgNative mx x a => obind (ltens e x) (fun t => obind (b_arg (order mx) a t) (fun r =>
        match tdata r with [v] => Some (lset (lset e (helper mx) (LI r)) out (LNative v)) | _ => None end))
    | LHardmax x a => obind (ltens e x) (fun t => obind (b_arg le a t) (fun ix =>
        obind (b_scatter add a ix (b_fill (tshape ix) one) (b_fill (tshape t) zero)) (fun r => Some (lset e out (LT r)))))
    | LSoftmax x a => obind (ltens e x) (fun t => obind (b_lines (fun l => Some (softmax l)) (fun d => d) a t) (fun r => Some (lset e out (LT r))))
    | LLogSoftmax x a => obind (ltens e x) (fun t => obind (b_lines (fun l => Some (log_softmax l)) (fun d => d) a t) (fun r => Some (lset e out (LT r))))
    end.
End Exec.
(** Burn's [softmax] and [log_softmax] on real numbers: the greatest element is
    subtracted first. *)
Definition peak (l : list real) : real := match l with [] => 0%R | v :: r => fold_right Rmax v r end.
Definition b_softmax (l : list real) : list real :=
  let e := map (fun v => exp (v - peak l)) l in map (fun w => (w / fold_right Rplus 0%R e)%R) e.
Definition b_log_softmax (l : list real) : list real :=
  let s := map (fun v => (v - peak l)%R) l in map (fun w => (w - ln (fold_right Rplus 0%R (map exp s)))%R) s.
