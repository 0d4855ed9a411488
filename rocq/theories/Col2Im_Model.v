(** The code emitted for Col2Im: crates/burn-onnx/src/burn/node/col2im.rs and
    crates/onnx-ir/src/node/col2im.rs.  The products the generator computes are
    unbounded here, [usize] there. *)
From Verif Require Export Lines_Model RankOps_Model.
From Verif Require Import ShapeOps_Model TensorRun_Model Recur_Model BinOps_Model.
From Verif Require Export Col2Im_Spec.
Import Col2Im_Spec Tensor_Spec.
Local Open Scope N_scope.

Record col2im_conf := mkC2I { ci_image : list N; ci_block : list N; ci_dilations : list N; ci_pads : list N; ci_strides : list N }.
Section Config.
  Variable value : arg -> option (list Z).
  (** onnx-ir col2im.rs:161-245. *)
  Definition col2im_config (n : rnode) : ires col2im_conf :=
    match ninputs n with
    | _ :: i1 :: i2 :: _ =>
        match value i1, value i2 with
        | Some image, Some block =>
            let k := length image in
            ibind (attr_i64s_or n "dilations" (repeat 1%Z k)) (fun dl =>
            ibind (attr_i64s_or n "pads" (repeat 0%Z (k * 2))) (fun ps =>
            ibind (attr_i64s_or n "strides" (repeat 1%Z k)) (fun ss =>
            IOk (mkC2I (map to_usize image) (map to_usize block) (map to_usize dl) (map to_usize ps) (map to_usize ss)))))
        | _, _ => IErr
        end
    | _ => IPanic
    end.
  (** onnx-ir col2im.rs:82-159. *)
  Definition infer_col2im (n : rnode) : ires argty :=
    match ninputs n with
    | [] => IPanic
    | i0 :: _ =>
        match aty i0 with
        | TensorT t =>
            if negb (tt_rank t =? 3) then IErr else
            ibind (col2im_config n) (fun c =>
            ibind (match tt_shape t with
                   | Some (a :: b :: _) => if prodN (ci_block c) =? 0 then match b with Some _ => IPanic | None => IOk [a; None] end
                                           else IOk [a; option_map (fun v => v / prodN (ci_block c)) b]
                   | Some _ => IPanic
                   | None => IOk [None; None]
                   end) (fun nc =>
            if (2 <? length (ci_image c))%nat then IErr
            else IOk (TensorT (mkTT (tt_dtype t) (2 + N.of_nat (length (ci_image c))) (Some (nc ++ map Some (ci_image c)))))))
        | _ => IErr
        end
    end.
End Config.

(** The numbers written into the code (col2im.rs:70-226).  A term is
    [arange(0..size).mul_scalar(mult).reshape(shape)] (col2im.rs:88-109). *)
Record term := mkTerm { t_size : N; t_mult : N; t_shape : list N }.
Record ccode := mkCode {
  cc_block : N; cc_windows : N; cc_padded : N; cc_blocks : list term; cc_offsets : list term;
  cc_dims : list N; cc_slice : option (list (N * N)) }.
(** [vec![1; k]] with [v] at [i]: col2im.rs:84-85, 98-99. *)
Definition one_at (k i : nat) (v : N) : list N := map (fun j => if Nat.eqb j i then v else 1) (seq 0 k).
(** col2im.rs:12-226; an index out of bounds, a subtraction below zero and a division
    by zero are panics of the generator, as is any number of axes but one and two. *)
Definition gen_col2im (c : col2im_conf) : option ccode :=
  let k := length (ci_image c) in
  if (length (ci_pads c) <? k)%nat then None else
  let pb := firstn k (ci_pads c) in let pe := skipn k (ci_pads c) in
  obind (mapo (fun bd => if fst bd =? 0 then None else Some (snd bd * (fst bd - 1) + 1)) (combine (ci_block c) (ci_dilations c))) (fun eff =>
  obind (mapo (fun i => obind (nth_error (ci_image c) i) (fun im => obind (nth_error pb i) (fun b => obind (nth_error pe i) (fun e => Some (im + b + e))))) (seq 0 k)) (fun pd =>
  obind (mapo (fun i => obind (nth_error pd i) (fun p => obind (nth_error eff i) (fun x => obind (nth_error (ci_strides c) i) (fun s =>
           if (p <? x) || (s =? 0) then None else Some ((p - x) / s + 1))))) (seq 0 k)) (fun counts =>
  obind (mapo (fun i => obind (nth_error (ci_block c) i) (fun b => obind (nth_error (ci_dilations c) i) (fun d =>
           Some (mkTerm b (d * prodN (skipn (S i) pd)) (one_at k i b))))) (rev (seq 0 k))) (fun bt =>
  obind (mapo (fun i => obind (nth_error counts i) (fun w => obind (nth_error (ci_strides c) i) (fun s =>
           Some (mkTerm w (s * prodN (skipn (S i) pd)) (one_at k i w))))) (rev (seq 0 k))) (fun wt =>
  if (1 <=? k)%nat && (k <=? 2)%nat then
    Some (mkCode (prodN (ci_block c)) (prodN counts) (prodN pd) bt wt pd
      (if forallb (N.eqb 0) pb && forallb (N.eqb 0) pe then None
       else Some (map (fun be => (fst be, fst be + snd be)) (combine pb (ci_image c)))))
  else None))))).

(** Running a term (col2im.rs:88-92). *)
Definition run_term (t : term) : option (tensor Z) :=
  b_reshape (t_shape t) (mkT [t_size t] (map (fun j => Z.of_N (j * t_mult t)) (upto (t_size t)))).
(** The sum of the terms, from the left: col2im.rs:112-136. *)
Definition sum_terms (l : list term) : option (tensor Z) :=
  match l with
  | [] => None
  | t :: r => fold_left (fun acc u => obind acc (fun a => obind (run_term u) (fun b => elementwise Z.add a b))) r (run_term t)
  end.
Section Run.
  Context {T : Type} (add : T -> T -> T) (zero : T).
  (** col2im.rs:138-142. *)
  Definition run_indices (c : ccode) : option (tensor Z) :=
    obind (sum_terms (cc_blocks c)) (fun bs => obind (b_reshape [cc_block c; 1] bs) (fun b =>
    obind (sum_terms (cc_offsets c)) (fun ws => obind (b_reshape [1; cc_windows c] ws) (fun w =>
    obind (elementwise Z.add b w) (fun s => b_reshape [prodN (tshape s)] s))))).
  (** col2im.rs:188-223, on an input of element type [d].  The canvas is a
      [Tensor::<B, 3>], a tensor of floats: with an input of integers or booleans the
      Rust compiler rejects the call of [scatter], which is [None] here. *)
  Definition run_col2im (d : dtype) (c : ccode) (x : tensor T) : option (tensor T) :=
    if negb (is_float_dtype d) then None else
    match tshape x with
    | [n; cb; _] =>
        if cc_block c =? 0 then None else
        let ch := cb / cc_block c in
        let total := cc_block c * cc_windows c in
        obind (b_reshape [n; ch; total] x) (fun flat =>
        obind (run_indices c) (fun ix =>
        obind (b_reshape [1; 1; prodN (tshape ix)] ix) (fun ix1 =>
        obind (b_expand [Z.of_N n; Z.of_N ch; Z.of_N total] ix1) (fun ixe =>
        obind (b_scatter add 2 ixe flat (b_fill [n; ch; cc_padded c] zero)) (fun canvas =>
        obind (b_reshape (n :: ch :: cc_dims c) canvas) (fun y =>
        match cc_slice c with
        | None => Some y
        | Some rs => Recur_Model.b_slice ((0, n) :: (0, ch) :: rs) y
        end))))))
    | _ => None
    end.
End Run.
