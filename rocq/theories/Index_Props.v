(** C53 and C54: the code emitted for GatherND and ScatterND. *)
From Coq Require Import Lia ZifyBool ZifyNat ZifyN.
From Verif Require Import Index_Spec Index_Model Index_Proofs Shapes_Spec.
Import Tensor_Spec BinOps_Spec RankOps_Spec ShapeRun_Spec.
Open Scope string_scope.
Open Scope list_scope.
Open Scope N_scope.

(** The variable of an argument holds a value of its type that stands for the
    ONNX tensor, and the recorded shape fits that tensor. *)
Definition held (e : renv) (a : arg) (t : otensor) : Prop :=
  (exists v, e (aname a) = Some v /\ stands_for (fst t) (aty a) v (snd t)) /\ Shapes_Spec.fits (aty a) (tshape (snd t)).

(** ** C53: GatherND *)

(** Whatever the shapes, the batch dimensions and the indices: if inference
    accepts the node and ONNX defines its result, the emitted code runs and
    yields a value of the recorded type that stands for that result.  Missing:
    data of more than 2^31 elements, for which it is false (below). *)
Theorem C53_gather_nd_partial : forall n ins out e o,
  ntype n = "GatherND" -> noutputs n = [o] -> Forall2 (held e) (ninputs n) ins ->
  onnx_index_node n ins out -> infer_index_node n = IOk (aty o) ->
  (forall x, hd_error ins = Some x -> prodN (tshape (snd x)) <= 2147483648) ->
  exists s v, gen_index_node n = Some s /\ iexec e s = Some v /\ stands_for (fst out) (aty o) v (snd out).
Proof.
  intros n ins out e o Hn Ho H O T Hs. unfold infer_index_node, gen_index_node in *. rewrite Hn in *. cbn [String.eqb] in *.
  destruct O as [d x ix b z _ Hb Hr Hz|]; [|congruence].
  inversion H as [|a t1 l1 l2 Ha H' E1 E2]; subst. inversion H' as [|i t2 l3 l4 Hi H'' E3 E4]; subst. inversion H'' as [E5|]; subst.
  destruct Ha as [(va & Ea & Sa) _], Hi as [(vi & Ei & Si) Fi]. cbn [fst snd] in *.
  exact (gathernd_node n e a i o va vi d x ix b z (eq_sym E1) Ho Ea Sa Ei Si Fi Hb Hr Hz (Hs _ eq_refl) T).
Qed.
Print Assumptions C53_gather_nd_partial.

(** *** Cases *)
Definition var (x : string) (t : argty) : arg := mkArg x t VDynamic.
Definition ints (s : list N) (l : list Z) : tensor elt := mkT s (map EI l).
Definition i64s (s : list N) : argty := TensorT (mkTT I64 (N.of_nat (length s)) (Some (map Some s))).
Lemma held_ints e x s l : e x = Some (RTensor (ints s l)) -> s <> [] -> twf (ints s l) ->
  Forall (fun z => (-9223372036854775808 <= z <= 9223372036854775807)%Z) l -> held e (var x (i64s s)) (I64, ints s l).
Proof.
  intros E Hs W F. split; [exists (RTensor (ints s l)); split; [exact E|]|].
  - split; [exact W|]. split.
    + cbn. rewrite Forall_map. eapply Forall_impl; [|exact F]. cbn. intros z Hz. exists (-9223372036854775808)%Z, 9223372036854775807%Z. split; [reflexivity|exact Hz].
    + cbn. repeat split. destruct s; [contradiction|]. cbn [length]. lia.
  - cbn. split; [reflexivity|]. intros l' E'. injection E' as <-. clear. induction s; cbn; [constructor|]. constructor; auto.
Qed.

(** One batch dimension, a negative index, a slice left over. *)
Definition n_gnd := mkNode "GatherND" "g" [var "x" (i64s [2; 2; 2]); var "i" (i64s [2; 2; 1])] [var "y" (TensorT (mkTT I64 3 None))] [("batch_dims", AInt 1)].
Definition e_gnd : renv := bind (bind (fun _ => None) "x" (RTensor (ints [2; 2; 2] [0; 1; 2; 3; 4; 5; 6; 7]%Z))) "i" (RTensor (ints [2; 2; 1] [1; -2; 0; -1]%Z)).
Example C53_batch :
  let ins := [(I64, ints [2; 2; 2] [0; 1; 2; 3; 4; 5; 6; 7]%Z); (I64, ints [2; 2; 1] [1; -2; 0; -1]%Z)] in
  Forall2 (held e_gnd) (ninputs n_gnd) ins /\
  onnx_index_node n_gnd ins (I64, ints [2; 2; 2] [2; 3; 0; 1; 4; 5; 6; 7]%Z) /\
  infer_index_node n_gnd = IOk (TensorT (mkTT I64 3 None)).
Proof.
  split; [|split; [|reflexivity]].
  - repeat apply Forall2_cons; try apply Forall2_nil; (apply held_ints; [reflexivity|discriminate|reflexivity|repeat apply Forall_cons; try apply Forall_nil; lia]).
  - apply (on_gather_nd _ I64 _ _ 1%Z); [reflexivity|reflexivity|lia|reflexivity].
Qed.

(** A scalar result, kept on the device. *)
Definition n_gone := mkNode "GatherND" "g" [var "x" (i64s [2; 2]); var "i" (i64s [2])] [var "y" (ScalarTensor I64)] [].
Definition e_gone : renv := bind (bind (fun _ => None) "x" (RTensor (ints [2; 2] [0; 1; 2; 3]%Z))) "i" (RTensor (ints [2] [-1; 0]%Z)).
Example C53_one :
  let ins := [(I64, ints [2; 2] [0; 1; 2; 3]%Z); (I64, ints [2] [-1; 0]%Z)] in
  Forall2 (held e_gone) (ninputs n_gone) ins /\
  onnx_index_node n_gone ins (I64, ints [] [2]%Z) /\ infer_index_node n_gone = IOk (ScalarTensor I64).
Proof.
  split; [|split; [|reflexivity]].
  - repeat apply Forall2_cons; try apply Forall2_nil; (apply held_ints; [reflexivity|discriminate|reflexivity|repeat apply Forall_cons; try apply Forall_nil; lia]).
  - apply (on_gather_nd _ I64 _ _ 0%Z); [reflexivity|reflexivity|lia|reflexivity].
Qed.

(** What inference does not accept: indices that are the shape of a tensor, and
    indices whose last dimension is not known. *)
Theorem C53_refused : forall n a i rest,
  ninputs n = a :: i :: rest ->
  (exists k, aty i = ShapeT k) \/ (exists t, aty i = TensorT t /\ (tt_shape t = None \/ exists l, tt_shape t = Some (l ++ [None]))) ->
  forall ty, infer_gathernd n <> IOk ty.
Proof.
  intros n a i rest Hi H ty E. unfold infer_gathernd in E. rewrite Hi in E.
  destruct H as [[k Hk]|(t & Hk & H)]; rewrite Hk in E; destruct (aty a); try discriminate E.
  destruct (batch_dims n) as [b| |]; try discriminate E. cbn [ibind] in E. destruct (_ <=? b); [discriminate E|].
  destruct H as [H|[l H]]; rewrite H in E; [discriminate E|]. destruct (l ++ [None]) as [|o0 l0] eqn:El; [discriminate E|].
  assert (Hl : last (o0 :: l0) None = None) by (rewrite <- El; apply last_last). rewrite Hl in E. discriminate E.
Qed.
Print Assumptions C53_refused.

(** Beyond 2^31 elements the offset does not survive the cast to [i32]. *)
Lemma one_dim D data i : (0 <= i < Z.of_N D)%Z ->
  gather_nd 0 (mkT [D] data) (ints [1] [i]) = option_map (fun v => mkT [] [v]) (nth_error data (N.to_nat (Z.to_N i))) /\
  ((as_i32 (Z.to_N i) < 0)%Z -> gather_one_code 0 (mkT [D] data) [i] = None).
Proof.
  intros H.
  assert (Hw : one_index D i = Some (Z.to_N i)).
  { unfold one_index, from_end. replace ((- Z.of_N D <=? i) && (i <? Z.of_N D))%Z with true by lia. replace (i <? 0)%Z with false by lia. reflexivity. }
  assert (Ht : index_tuple (ints [1] [i]) [D] [] 1 = Some [Z.to_N i]) by (unfold index_tuple; change (combine (upto 1) [D]) with [(0, D)]; cbn [mapo]; change (get _ _) with (Some (EI i)); cbn [snd]; rewrite Hw; reflexivity).
  split.
  - assert (Hok : tuples_ok (ints [1] [i]) [D] = true).
    { unfold tuples_ok. change (indices (tuple_places (ints [1] [i]))) with [@nil N]. change (tuple_size (ints [1] [i])) with 1. cbn [forallb]. rewrite Ht. reflexivity. }
    unfold gather_nd. cbv zeta. change (tuple_size (ints [1] [i])) with 1. change (tuple_places (ints [1] [i])) with (@nil N). cbn [tshape skipn firstn ints].
    fold (ints [1] [i]). rewrite Hok. destruct (list_eq_dec N.eq_dec [] []) as [_|c]; [|elim c; reflexivity].
    match goal with |- (if ?c then _ else _) = _ => replace c with true by reflexivity end. change (skipn _ [D]) with (@nil N). unfold tab. cbn [app indices mapo].
    cbn [length Nat.sub firstn skipn]. rewrite Ht. unfold get. cbn [app tshape tdata offset prodN]. replace (Z.to_N i * 1 + 0) with (Z.to_N i) by lia.
    destruct (nth_error data _); reflexivity.
  - intros Hneg. unfold gather_one_code. cbv zeta. cbn [tshape length tdata]. change (1 - N.to_nat 0)%nat with 1%nat.
    unfold tuple_offset. cbn [seq fold_left]. unfold add_index. cbn [obind nth_error Nat.add N.to_nat strides].
    replace (i <? 0)%Z with false by lia. cbv zeta. replace (i <? 0)%Z with false by lia. cbn [obind].
    destruct (reshape_flat _ _); [|reflexivity]. cbn [obind]. unfold select_flat. cbn [mapo]. replace (0 + Z.to_N i * 1) with (Z.to_N i) by lia.
    replace (as_i32 (Z.to_N i) <? 0)%Z with true by lia. reflexivity.
Qed.
Lemma repeat_nth {A} (a : A) n k : k < n -> nth_error (repeat a (N.to_nat n)) (N.to_nat k) = Some a.
Proof. intros H. rewrite (nth_error_nth' _ a) by (rewrite repeat_length; lia). rewrite nth_repeat. reflexivity. Qed.
Lemma repeat_wf D (v : elt) : twf (mkT [D] (repeat v (N.to_nat D))).
Proof. unfold twf. cbn [tdata tshape prodN]. rewrite repeat_length. f_equal. lia. Qed.
Theorem C53_large_refuted : exists x ix z,
  twf x /\ gather_nd 0 x ix = Some z /\ prodN (tshape x) = 2147483649 /\
  (exists vals, as_ints ix = Some vals /\ gather_one_code 0 x vals = None).
Proof.
  exists (mkT [2147483649] (repeat (EB true) (N.to_nat 2147483649))), (ints [1] [2147483648]%Z), (mkT [] [EB true]).
  destruct (one_dim 2147483649 (repeat (EB true) (N.to_nat 2147483649)) 2147483648) as [H1 H2]; [lia|].
  split; [|split; [|split; [reflexivity|exists [2147483648]%Z; split; [reflexivity|apply H2; reflexivity]]]].
  - apply repeat_wf.
  - rewrite H1, repeat_nth by reflexivity. reflexivity.
Qed.
Print Assumptions C53_large_refuted.

(** ** C54: ScatterND *)

(** Whatever the shapes, the reduction and the indices, also when several
    tuples name the same slice: the emitted loop computes the ONNX result.
    Missing: data without elements, indices or updates held in arrays or
    native scalars, for which it is false (below). *)
Definition on_device (ty : argty) : Prop := match ty with TensorT _ | ScalarTensor _ => True | _ => False end.
Theorem C54_scatter_nd_partial : forall n ins out e o,
  ntype n = "ScatterND" -> (forall k v, In (k, v) (nattrs n) -> k = "reduction") ->
  noutputs n = [o] -> Forall2 (held e) (ninputs n) ins ->
  onnx_index_node n ins out -> infer_index_node n = IOk (aty o) ->
  (forall a, In a (ninputs n) -> on_device (aty a)) ->
  prodN (tshape (snd out)) <> 0 ->
  exists s v, gen_index_node n = Some s /\ iexec e s = Some v /\ stands_for (fst out) (aty o) v (snd out).
Proof.
  intros n ins out e o Hn Hk Ho H O T D Hne. unfold infer_index_node, gen_index_node in *. rewrite Hn in *. cbn [String.eqb] in *.
  destruct O as [|d x ix upd red z _ Hred Hbool Hz]; [congruence|].
  inversion H as [|a t1 l1 l2 Ha H' E1 E2]; subst. inversion H' as [|i t2 l3 l4 Hi H'' E3 E4]; subst.
  inversion H'' as [|u t3 l5 l6 Hu H3 E5 E6]; subst. inversion H3 as [E7|]; subst.
  destruct Ha as [(va & Ea & Sa) _], Hi as [(vi & Ei & Si) _], Hu as [(vu & Eu & Su) _]. cbn [fst snd] in *.
  assert (Hz' := Hz). unfold scatter_nd in Hz'. cbv zeta in Hz'. destruct (_ && _) eqn:E in Hz'; [|discriminate Hz'].
  repeat (apply andb_prop in E as [E ?]).
  assert (Da : on_device (aty a)) by (apply D; rewrite <- E1; left; reflexivity).
  assert (Di : on_device (aty i)) by (apply D; rewrite <- E1; right; left; reflexivity).
  assert (Du : on_device (aty u)) by (apply D; rewrite <- E1; right; right; left; reflexivity).
  destruct (scatter_nd_shape _ _ _ _ _ _ Hz) as [_ Sz]. rewrite Sz in Hne.
  assert (Ta : exists t, aty a = TensorT t).
  { destruct (aty a); try contradiction; [|eauto]. destruct Sa as (_ & _ & S0). destruct va; try contradiction. destruct S0 as (_ & S0 & _). rewrite S0 in *. discriminate. }
  assert (Ti : exists t, aty i = TensorT t).
  { destruct (aty i); try contradiction; [|eauto]. destruct Si as (_ & _ & S0). destruct vi; try contradiction. destruct S0 as (_ & S0 & _). rewrite S0 in *. discriminate. }
  assert (Tu : exists t, aty u = TensorT t \/ aty u = ScalarTensor d).
  { destruct (aty u) as [d'| | |t]; try contradiction; [|eauto]. destruct Su as (_ & _ & S0). destruct vu; try contradiction. destruct S0 as (-> & _). exists (mkTT d 0 None). auto. }
  assert (Hon : only_attrs n ["reduction"] = true).
  { unfold only_attrs. apply forallb_forall. intros [k v] Hin. rewrite (Hk k v Hin). reflexivity. }
  exact (scatternd_node n e a i u o va vi vu d x ix upd red z (eq_sym E1) Ho Ea Sa Ei Si Eu Su Ta Ti Tu Hred Hbool Hz Hne Hon T).
Qed.
Print Assumptions C54_scatter_nd_partial.

(** Rows named twice and from the end, added up. *)
Definition n_snd := mkNode "ScatterND" "s" [var "x" (i64s [3; 2]); var "i" (i64s [3; 1]); var "u" (i64s [3; 2])] [var "y" (i64s [3; 2])] [("reduction", AString "add")].
Definition e_snd : renv := bind (bind (bind (fun _ => None) "x" (RTensor (ints [3; 2] [0; 1; 2; 3; 4; 5]%Z))) "i" (RTensor (ints [3; 1] [2; -3; -1]%Z))) "u" (RTensor (ints [3; 2] [10; 20; 30; 40; 50; 60]%Z)).
Example C54_add :
  let ins := [(I64, ints [3; 2] [0; 1; 2; 3; 4; 5]%Z); (I64, ints [3; 1] [2; -3; -1]%Z); (I64, ints [3; 2] [10; 20; 30; 40; 50; 60]%Z)] in
  (forall k v, In (k, v) (nattrs n_snd) -> k = "reduction") /\
  Forall2 (held e_snd) (ninputs n_snd) ins /\
  onnx_index_node n_snd ins (I64, ints [3; 2] [30; 41; 2; 3; 64; 85]%Z) /\
  infer_index_node n_snd = IOk (i64s [3; 2]) /\ (forall a, In a (ninputs n_snd) -> on_device (aty a)).
Proof.
  split; [|split; [|split; [|split; [reflexivity|]]]].
  - intros k v [H|[]]. congruence.
  - repeat apply Forall2_cons; try apply Forall2_nil; (apply held_ints; [reflexivity|discriminate|reflexivity|repeat apply Forall_cons; try apply Forall_nil; lia]).
  - apply (on_scatter_nd _ I64 _ _ _ RedAdd); [reflexivity|reflexivity|discriminate|reflexivity].
  - intros a H. cbn in H. repeat destruct H as [<- | H]; try exact I. destruct H.
Qed.

(** Left out: an update of an empty slice is refused by [narrow]; indices in an
    array and updates in a native scalar do not compile. *)
Theorem C54_empty_refuted : exists x ix upd z vals,
  scatter_nd I64 RedNone x ix upd = Some z /\ as_ints ix = Some vals /\ scatter_code I64 RedNone x (tshape ix) vals upd = None.
Proof. exists (ints [1; 0] []), (ints [1; 1] [0]%Z), (ints [1; 0] []), (ints [1; 0] []), [0]%Z. repeat split; reflexivity. Qed.
Print Assumptions C54_empty_refuted.
Theorem C54_array_indices_refuted : exists n ins out o e,
  Forall2 (held e) (ninputs n) ins /\ onnx_index_node n ins out /\ noutputs n = [o] /\ infer_index_node n = IOk (aty o) /\
  exists s, gen_index_node n = Some s /\ iexec e s = None.
Proof.
  exists (mkNode "ScatterND" "s" [var "x" (i64s [2]); var "i" (ShapeT 1); var "u" (ScalarTensor I64)] [var "y" (i64s [2])] []),
    [(I64, ints [2] [5; 6]%Z); (I64, ints [1] [1]%Z); (I64, ints [] [7]%Z)], (I64, ints [2] [5; 7]%Z), (var "y" (i64s [2])),
    (bind (bind (bind (fun _ => None) "x" (RTensor (ints [2] [5; 6]%Z))) "i" (RShape [1]%Z)) "u" (RTensor (ints [1] [7]%Z))).
  split; [|split; [|split; [reflexivity|split; [reflexivity|eexists; split; reflexivity]]]].
  - apply Forall2_cons; [|apply Forall2_cons; [|apply Forall2_cons; [|apply Forall2_nil]]].
    + apply held_ints; [reflexivity|discriminate|reflexivity|repeat apply Forall_cons; try apply Forall_nil; lia].
    + split; [|reflexivity]. eexists. split; [reflexivity|]. split; [reflexivity|]. split; [|split; [reflexivity|left; split; reflexivity]].
      repeat constructor. do 2 eexists. split; [reflexivity|split; discriminate].
    + split; [|reflexivity]. eexists. split; [reflexivity|]. split; [reflexivity|]. split; [|split; [reflexivity|split; reflexivity]].
      repeat constructor. do 2 eexists. split; [reflexivity|split; discriminate].
  - apply (on_scatter_nd _ I64 _ _ _ RedNone); reflexivity.
Qed.
Print Assumptions C54_array_indices_refuted.
