(** Col2Im: the code emitted adds up the blocks as ONNX prescribes (C70). *)
From Coq Require Import Lia ZifyBool ZifyNat ZifyN.
From Verif Require Import Col2Im_Model Col2Im_Proofs Tensor_Proofs BinOps_Model Shapes_Spec.
Import Col2Im_Spec Tensor_Spec.
Local Open Scope N_scope.


(** With one or two spatial axes, whatever the strides, dilations and pads, the node is
    accepted, the inferred type has the element type and the shape of the result, and the code for
    floats computes exactly what ONNX prescribes.  Missing: other elements (below), rounding (a sum is taken in
    one order, that of the specification) and images whose sizes overflow [usize]. *)
Theorem C70_col2im_partial : forall (T : Type) (add : T -> T -> T) (zero : T) (value : arg -> option (list Z)) (k : nat) (n : rnode) (g : geometry) (Nb C : N) (X : tensor T) (x : arg) (rest : list arg) (t : tensor_type),
  (k = 1 \/ k = 2)%nat -> geometry_ok k g -> col2im_node value k n g -> twf X -> columns g Nb C X ->
  ninputs n = x :: rest -> aty x = TensorT t -> fits_tt t (tshape X) ->
  exists conf code Y, col2im_config value n = IOk conf /\ gen_col2im conf = Some code /\ onnx_col2im add zero g Nb C X = Some Y /\
    (is_float_dtype (tt_dtype t) = true -> run_col2im add zero (tt_dtype t) code X = Some Y) /\
    exists u, infer_col2im value n = IOk (TensorT u) /\ tt_dtype u = tt_dtype t /\ fits_tt u (tshape Y).
Proof.
  intros T add zero value k n g Nb C X x rest t K G Hn W S Ein Ety [Fr Fs]. pose proof (config_ok value k n g G Hn) as EC. destruct (gen_ok g k K G) as (c & Ec & E1 & E2 & E3 & E4 & E5 & E6 & E7).
  destruct (run_ok add zero (tt_dtype t) g c k Nb C X G E1 E2 E3 E4 E5 E6 E7 W S) as (R & Y & HY). eexists _, c, Y. split; [exact EC|]. split; [exact Ec|]. split; [exact HY|]. split; [intros Hf; rewrite R by exact Hf; exact HY|].
  pose proof (tab_wf _ _ _ HY) as [_ SY]. rewrite SY. clear R.
  destruct G as (L1 & L2 & _ & _ & _ & _ & Pk & _). unfold columns in S. rewrite S in Fr, Fs. cbn in Fr.
  assert (HBP : prodN (g_block g) <> 0). { clear -Pk. induction Pk; cbn; [lia|]. lia. }
  assert (Fi : fits_dims (map Some (g_image g)) (g_image g)) by (unfold fits_dims; clear; induction (g_image g); cbn; constructor; auto).
  unfold infer_col2im. rewrite Ein, Ety. replace (negb (tt_rank t =? 3)) with false by lia. rewrite EC. cbn [ibind ci_image ci_block]. rewrite ?L1.
  replace (2 <? k)%nat with false by lia. replace (prodN (g_block g) =? 0) with false by lia.
  destruct (tt_shape t) as [l|] eqn:Et.
  - specialize (Fs l eq_refl). inversion Fs as [|a ? l1 ? Ha F1]; subst. inversion F1 as [|b ? l2 ? Hb F2]; subst. cbn [ibind].
    eexists. split; [reflexivity|]. split; [reflexivity|]. split; cbn [tt_rank tt_shape length app]; [lia|]. intros l0 E0. injection E0 as <-. constructor; [exact Ha|]. constructor; [|exact Fi].
    destruct Hb as [-> | ->]; [left; reflexivity|]. right. cbn. rewrite N.div_mul by exact HBP. reflexivity.
  - cbn [ibind]. eexists. split; [reflexivity|]. split; [reflexivity|]. split; cbn [tt_rank tt_shape length app]; [lia|]. intros l0 E0. injection E0 as <-. constructor; [left; reflexivity|]. constructor; [left; reflexivity|exact Fi].
Qed.
Print Assumptions C70_col2im_partial.

(** Integers and booleans, which ONNX allows, are accepted all the same, and the code
    emitted for them does not compile. *)
Theorem C70_col2im_type_refuted : forall (T : Type) (add : T -> T -> T) (zero : T) (value : arg -> option (list Z)) (k : nat) (n : rnode) (g : geometry) (Nb C : N) (X : tensor T) (x : arg) (rest : list arg) (t : tensor_type),
  (k = 1 \/ k = 2)%nat -> geometry_ok k g -> col2im_node value k n g -> twf X -> columns g Nb C X ->
  ninputs n = x :: rest -> aty x = TensorT t -> fits_tt t (tshape X) -> is_float_dtype (tt_dtype t) = false ->
  exists conf code Y u, onnx_col2im add zero g Nb C X = Some Y /\ infer_col2im value n = IOk u /\
    col2im_config value n = IOk conf /\ gen_col2im conf = Some code /\ run_col2im add zero (tt_dtype t) code X = None.
Proof.
  intros T add zero value k n g Nb C X x rest t K G Hn W S Ein Ety F Hf.
  destruct (C70_col2im_partial T add zero value k n g Nb C X x rest t K G Hn W S Ein Ety F) as (conf & code & Y & Ec & Eg & EY & _ & u & Eu & _).
  exists conf, code, Y, (TensorT u). repeat split; try assumption. unfold run_col2im. rewrite Hf. reflexivity.
Qed.
Print Assumptions C70_col2im_type_refuted.

(** What is not supported is refused when the model is imported: three spatial axes or
    more, and sizes that are not constants. *)
Theorem C70_col2im_refused : forall (value : arg -> option (list Z)) (k : nat) (n : rnode) (g : geometry) (x i b : arg) (t : tensor_type),
  ninputs n = [x; i; b] -> aty x = TensorT t ->
  (value i = None \/ value b = None -> infer_col2im value n = IErr) /\
  ((2 < k)%nat -> geometry_ok k g -> col2im_node value k n g -> tt_rank t = 3 -> (forall l, tt_shape t = Some l -> length l = 3%nat) -> infer_col2im value n = IErr).
Proof.
  intros value k n g x i b t Ein Ety. split.
  - intros H. unfold infer_col2im, col2im_config. rewrite Ein, Ety. destruct (negb (tt_rank t =? 3)); [reflexivity|].
    destruct H as [-> | ->]; [reflexivity|]. destruct (value i); reflexivity.
  - intros K G Hn Hr Hl. pose proof (config_ok value k n g G Hn) as EC. unfold infer_col2im. rewrite Ein, Ety, Hr, EC. cbn [N.eqb Pos.eqb negb ibind ci_image ci_block].
    destruct G as (L1 & _ & _ & _ & _ & _ & Pk & _). assert (HBP : prodN (g_block g) <> 0). { clear -Pk. induction Pk; cbn; [lia|]. lia. }
    rewrite L1. replace (2 <? k)%nat with true by lia. replace (prodN (g_block g) =? 0) with false by lia.
    destruct (tt_shape t) as [l|]; [|reflexivity]. specialize (Hl l eq_refl). destruct l as [|a [|b' l]]; try discriminate. reflexivity.
Qed.
Print Assumptions C70_col2im_refused.

Local Open Scope string_scope.
(** A 3 by 3 image, padded by 1 above, below and on the left, under blocks of 2 by 2: 4 by 3
    overlapping blocks for each of two channels. *)
Definition ex_g : geometry := mkG [3; 3] [2; 2] [1; 1] [1; 1] [1; 1] [1; 0].
Definition ex_arg (s : string) (ty : argty) : arg := mkArg s ty VDynamic.
Definition ex_n (d : dtype) : rnode :=
  mkNode "Col2Im" "col2im1" [ex_arg "x" (TensorT (mkTT d 3 (Some [None; Some 8; Some 12]))); ex_arg "image" (TensorT (mkTT I64 1 None)); ex_arg "block" (TensorT (mkTT I64 1 None))]
    [ex_arg "y" (TensorT (mkTT d 0 None))] [("pads", AInts [1; 1; 1; 0]%Z)].
Definition ex_v (a : arg) : option (list Z) := if String.eqb (aname a) "image" then Some [3; 3]%Z else if String.eqb (aname a) "block" then Some [2; 2]%Z else None.
Definition ex_x : tensor Z := mkT [1; 8; 12] (map (fun i => Z.of_N i) (upto 96)).
Example ex_node d : col2im_node ex_v 2 (ex_n d) ex_g.
Proof.
  split; [do 3 eexists; repeat split|]. repeat split; cbn; unfold i64_nats; repeat constructor.
Qed.
Example ex_ok : geometry_ok 2 ex_g /\ columns ex_g 1 2 ex_x /\ twf ex_x /\ fits_tt (mkTT F32 3 (Some [None; Some 8; Some 12])) (tshape ex_x).
Proof.
  split; [|split; [reflexivity|split; [reflexivity|split; [reflexivity|]]]].
  2: { intros l E. injection E as <-. apply Forall2_cons; [left; reflexivity|]. apply Forall2_cons; [right; reflexivity|]. apply Forall2_cons; [right; reflexivity|]. constructor. }
  repeat split; unfold all_positive; repeat constructor; cbn; lia. Qed.
Example ex_sum : exists Y, onnx_col2im Z.add 0%Z ex_g 1 2 ex_x = Some Y /\ tdata Y = [80; 84; 55; 92; 96; 61; 104; 108; 67; 272; 276; 151; 284; 288; 157; 296; 300; 163]%Z.
Proof. eexists. split; vm_compute; reflexivity. Qed.
