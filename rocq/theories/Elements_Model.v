(** The importer's and the code generator's parts for GatherElements and
    ScatterElements: crates/onnx-ir/src/node/{gather_elements,scatter_elements}.rs
    and crates/burn-onnx/src/burn/node/{gather_elements,scatter_elements}.rs.
    Sizes and offsets ([usize] in the code) are unbounded here: those computed are
    bounded by the number of elements of an existing tensor. *)
From Verif Require Export Lines_Model Index_Model Elements_Spec.
From Verif Require Import TensorRun_Model.
Import Elements_Spec Index_Spec Lines_Spec Tensor_Spec.
Local Open Scope N_scope.

(** ** Configuration and types *)
(** gather_elements.rs:97-159, scatter_elements.rs:81-142: the axis, checked.  The
    copy of constant indices in the configuration, which no code reads, is left out. *)
Definition elements_axis (n : rnode) (rank : N) : ires N :=
  ibind (attr_i64_or n "axis" 0) (fun a =>
    let a := if (a <? 0)%Z then (a + Z.of_N rank)%Z else a in
    if ((a <? 0) || (Z.of_N rank <=? a))%Z then IErr else IOk (to_usize a)).
Definition gather_elements_config (n : rnode) : ires N :=
  ibind (first_input n) (fun i => match aty i with
    | TensorT t => if only_attrs n ["axis"%string] then elements_axis n (tt_rank t) else IErr
    | _ => IErr end).
Definition scatter_elements_config (n : rnode) : ires (N * reduction) :=
  ibind (first_input n) (fun i => match aty i with
    | TensorT t =>
        if only_attrs n ["axis"%string; "reduction"%string] then
          ibind (match get_attr n "reduction" with
                 | None => IOk RedNone
                 | Some (AString s) =>
                     if String.eqb s "none" then IOk RedNone
                     else if String.eqb s "add" then IOk RedAdd
                     else if String.eqb s "mul" then IOk RedMul
                     else if String.eqb s "max" then IOk RedMax
                     else if String.eqb s "min" then IOk RedMin
                     else IErr
                 | Some _ => IPanic
                 end) (fun red => ibind (elements_axis n (tt_rank t)) (fun a => IOk (a, red)))
        else IErr
    | _ => IErr end).
(** gather_elements.rs:74-95. *)
Definition infer_gather_elements (n : rnode) : ires argty :=
  match ninputs n, noutputs n with
  | x :: ix :: _, o :: _ => match aty x, aty ix with
                            | TensorT t, TensorT ti => IOk (TensorT (mkTT (tt_dtype t) (tt_rank ti) (tt_shape ti)))
                            | _, _ => IOk (aty o) end
  | _, _ => IPanic
  end.
(** scatter_elements.rs:68-79. *)
Definition infer_scatter_elements (n : rnode) : ires argty :=
  match ninputs n, noutputs n with
  | x :: _, o :: _ => match aty x with TensorT t => IOk (TensorT t) | _ => IOk (aty o) end
  | _, _ => IPanic
  end.

(** ** The emitted statements *)
Inductive ecode :=
| EGather (x ix : string) (axis : N)                      (* x.gather(axis, ix) *)
| EAdd (x ix u : string) (axis : N)                       (* x.scatter(axis, ix, u, Add) *)
| EDiff (x ix u : string) (axis : N)                      (* x.scatter(axis, ix, u - x.gather(axis, ix), Add) *)
| ELoop (red : reduction) (x ix u : string) (axis : N).   (* the loop over the updates *)
(** burn/node/gather_elements.rs:12-21. *)
Definition gen_gather_elements (n : rnode) : option ecode :=
  match gather_elements_config n, ninputs n with IOk a, x :: ix :: _ => Some (EGather (aname x) (aname ix) a) | _, _ => None end.
(** burn/node/scatter_elements.rs:14-54. *)
Definition gen_scatter_elements (n : rnode) : option ecode :=
  match scatter_elements_config n, ninputs n with
  | IOk (a, red), x :: ix :: u :: _ =>
      match aty x with
      | TensorT t =>
          match tt_dtype t, red with
          | BoolT, RedNone => Some (ELoop RedNone (aname x) (aname ix) (aname u) a)
          | BoolT, _ => None
          | _, RedAdd => Some (EAdd (aname x) (aname ix) (aname u) a)
          | _, RedNone => Some (EDiff (aname x) (aname ix) (aname u) a)
          | _, _ => Some (ELoop red (aname x) (aname ix) (aname u) a)
          end
      | _ => None
      end
  | _, _ => None
  end.

(** ** Running them *)
(** [gather]: an index that is negative or too large has no result. *)
Definition b_gather_at {A} (axis : N) (ix : tensor Z) (x : tensor A) : option (tensor A) :=
  if same_but axis (tshape x) (tshape ix) then tab (tshape ix) (fun j => obind (b_target axis ix (tshape x) j) (get x)) else None.
(** scatter_elements.rs:115-128: the loop over the dimensions; [k] is the number
    of the first one, [rem] and [off] are [remaining] and [target_offset]. *)
Fixpoint place (dim : nat) (idx : Z) (k : nat) (dims ds us : list N) (rem off : N) : option N :=
  match dims with
  | [] => Some off
  | d :: dims' =>
      match ds, us with
      | st :: ds', si :: us' =>
          if si =? 0 then None
          else if Nat.eqb k dim then
            let idx' := if (idx <? 0)%Z then (idx + Z.of_N d)%Z else idx in
            if ((0 <=? idx') && (idx' <? Z.of_N d))%Z then place dim idx (S k) dims' ds' us' (rem mod si) (off + Z.to_N idx' * st) else None
          else place dim idx (S k) dims' ds' us' (rem mod si) (off + rem / si * st)
      | _, _ => None
      end
  end.
Section Exec.
  Context {T : Type} (add sub mul : T -> T -> T) (le : T -> T -> bool).
  (** Lines 54-87: what becomes of the element; [greater_equal] and
      [lower_equal] of the update. *)
  Definition loop_body (red : reduction) (existing update : T) : T :=
    match red with
    | RedNone => update
    | RedAdd => add existing update
    | RedMul => mul existing update
    | RedMax => if le existing update then update else existing
    | RedMin => if le update existing then update else existing
    end.
  (** Lines 89-133. *)
  Definition loop_step (red : reduction) (axis : N) (dims udims : list N) (vals : list Z) (upd : list T) (acc : option (list T)) (flat : N) : option (list T) :=
    obind acc (fun out =>
    obind (nth_error vals (N.to_nat flat)) (fun i =>
    obind (place (N.to_nat axis) i 0 dims (strides dims) (strides udims) flat 0) (fun at_ =>
    obind (nth_error upd (N.to_nat flat)) (fun v =>
    obind (nth_error out (N.to_nat at_)) (fun w => Some (set_nth out (N.to_nat at_) (loop_body red w v))))))).
  Definition scatter_loop (red : reduction) (axis : N) (x : tensor T) (ix : tensor Z) (u : tensor T) : option (tensor T) :=
    obind (fold_left (loop_step red axis (tshape x) (tshape u) (tdata ix) (tdata u)) (upto (prodN (tshape u))) (Some (tdata x)))
          (fun out => b_reshape (tshape x) (mkT [prodN (tshape x)] out)).
  Definition eints (e : lenv T) (x : string) : option (tensor Z) := match e x with Some (LI t) => Some t | _ => None end.
  (** [-] on tensors of one shape. *)
  Definition b_minus (x y : tensor T) : option (tensor T) :=
    if list_eq_dec N.eq_dec (tshape x) (tshape y) then tab (tshape x) (fun j => lift2 sub (get x j) (get y j)) else None.
  Definition erun (e : lenv T) (c : ecode) : option (tensor T) :=
    match c with
    | EGather x ix a => obind (ltens e x) (fun x => obind (eints e ix) (fun ix => b_gather_at a ix x))
    | EAdd x ix u a => obind (ltens e x) (fun x => obind (eints e ix) (fun ix => obind (ltens e u) (fun u => b_scatter add a ix u x)))
    | EDiff x ix u a => obind (ltens e x) (fun x => obind (eints e ix) (fun ix => obind (ltens e u) (fun u =>
        obind (b_gather_at a ix x) (fun g => obind (b_minus u g) (fun w => b_scatter add a ix w x)))))
    | ELoop red x ix u a => obind (ltens e x) (fun x => obind (eints e ix) (fun ix => obind (ltens e u) (fun u => scatter_loop red a x ix u)))
    end.
End Exec.
