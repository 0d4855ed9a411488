(** C36-C38: constants computed at import time. *)
From Coq Require Import Reals.
From Flocq Require Import Core BinarySingleNaN.
From Coq Require Import ZifyBool ZifyNat ZifyN.
From Verif Require Import Fold_Spec Fold_Proofs Float_Proofs Tensor_Proofs.
Open Scope string_scope. Open Scope list_scope. Open Scope N_scope.

(** ** An interpretation to show that the hypotheses below can be met *)
Definition same_shape (s t : list N) : bool := if list_eq_dec N.eq_dec s t then true else false.
Definition full (x : fdata) : bool := N.of_nat (vals_len (fd_vals x)) =? prodN (fd_shape x).
Definition inb (z : Z) : bool := ((min64 <=? z) && (z <=? max64))%Z%bool.
Definition ex_sem (t : string) (attrs : list (string * attr)) (k : nat) (vs : list (option fdata)) : option (list fdata) :=
  if negb (Nat.eqb k 1) then None
  else if String.eqb t "Constant" then match vs with [Some v] => Some [v] | _ => None end
  else if String.eqb t "Shape" then
    match vs with
    | [Some x] =>
        let l := map Z.of_N (shape_value (fd_shape x) (attr_int attrs "start" 0) (attr_int attrs "end" (Z.of_nat (length (fd_shape x))))) in
        Some [mkFD [N.of_nat (length l)] (XI64 l)]
    | _ => None
    end
  else if String.eqb t "Gather" then
    match vs with
    | [Some (mkFD xs (XI64 l)); Some (mkFD [] (XI64 [z]))] =>
        let n := Z.of_nat (length l) in
        if (inb z && (- n <=? z) && (z <? n))%Z%bool
        then match nth_error l (Z.to_nat (if z <? 0 then z + n else z)%Z) with Some v => Some [mkFD [] (XI64 [v])] | None => None end
        else None
    | _ => None
    end
  else if String.eqb t "Slice" then
    match vs with
    | [Some x; Some y; Some z] =>
        match fd_vals x, to_i64_vec y, to_i64_vec z with
        | XI64 l, Some [a], Some [b] => Some [mkFD [N.of_nat (length (slice_list l a b 1))] (XI64 (slice_list l a b 1))]
        | _, _, _ => None
        end
    | _ => None
    end
  else if String.eqb t "Add" then
    match vs with
    | [Some (mkFD xs (XI64 l)); Some (mkFD ys (XI64 m))] =>
        let r := mkFD xs (XI64 (map (fun p => fst p + snd p)%Z (combine l m))) in
        if (same_shape xs ys && full (mkFD xs (XI64 l)) && full (mkFD ys (XI64 m)) && forallb inb l && forallb inb m
            && forallb inb (map (fun p => fst p + snd p)%Z (combine l m)))%bool
        then Some [r] else None
    | _ => None
    end
  else None.

Lemma ex_constants : constants_mean ex_sem.
Proof. intros attrs v. reflexivity. Qed.

Lemma inb_in z : inb z = true -> in64 z.
Proof. unfold inb, in64. lia. Qed.

Lemma ex_shapes : shapes_mean ex_sem.
Proof.
  split; [|split]; intros attrs vs outs H; unfold ex_sem in H; cbn in H.
  - destruct vs as [|[x|] [|]]; try discriminate. inversion H; subst. eexists; eexists. split; [reflexivity|]. split; [reflexivity|]. reflexivity.
  - destruct vs as [|[[xs [l| | | |]]|] [|[[[|] [[|z [|]]| | | |]]|] [|]]]; try discriminate.
    destruct (inb z && (- Z.of_nat (length l) <=? z) && (z <? Z.of_nat (length l)))%Z%bool eqn:E; [|discriminate].
    destruct (nth_error l _) as [v|] eqn:Ev; [|discriminate]. inversion H; subst.
    eexists; eexists; eexists. split; [reflexivity|]. split; [reflexivity|]. intros _ l' El. cbn in El. inversion El; subst l'.
    exists [z], [v]. split; [reflexivity|]. split.
    { constructor; [|constructor]. split; [lia|exact Ev]. }
    split; [reflexivity|]. split; [reflexivity|]. cbn. constructor; [apply inb_in; lia|constructor].
  - destruct vs as [|[x|] [|[y|] [|[z|] [|]]]]; try discriminate.
    destruct (fd_vals x) as [l| | | |] eqn:Ex; try discriminate.
    destruct (to_i64_vec y) as [[|a [|]]|] eqn:Ey; try discriminate. destruct (to_i64_vec z) as [[|b [|]]|] eqn:Ez; try discriminate.
    inversion H; subst. eexists; eexists; eexists; exists []; eexists. split; [reflexivity|]. split; [cbn; lia|]. split; [reflexivity|].
    intros l' El. assert (l' = l) by congruence. subst l'. exists a, b, 1%Z. repeat (split; [reflexivity || assumption || discriminate || exact I|]). reflexivity.
Qed.

Lemma brev_self l : brev l l = Some l.
Proof. induction l as [|d l IH]; cbn; [reflexivity|]. unfold bdim. rewrite N.eqb_refl, IH. reflexivity. Qed.
Lemma nth_zip (l m : list Z) : forall k a b, nth_error l k = Some a -> nth_error m k = Some b ->
  nth_error (map (fun p => fst p + snd p)%Z (combine l m)) k = Some (a + b)%Z.
Proof.
  revert m. induction l as [|x l IH]; intros [|y m] [|k] a b H1 H2; cbn in *; try discriminate; [congruence|]. apply IH; assumption.
Qed.
Lemma forallb_in l : forallb inb l = true -> Forall in64 l.
Proof. intros H. apply Forall_forall. intros z Hz. rewrite forallb_forall in H. apply inb_in, H, Hz. Qed.

Lemma ex_folded : folded_mean ex_sem.
Proof.
  intros t attrs vs outs Ht H.
  assert (Ta : t = "Add").
  { unfold ex_sem in H. cbn [negb Nat.eqb] in H. repeat (destruct Ht as [<-|Ht]; [first [reflexivity|discriminate H]|]). destruct Ht. }
  subst t. unfold ex_sem in H. cbn in H.
  destruct vs as [|[[xs [l| | | |]]|] [|[[ys [m| | | |]]|] [|]]]; try discriminate.
  destruct (_ && _)%bool eqn:E in H; [|discriminate]. inversion H; subst. clear H.
  rewrite !andb_true_iff in E. destruct E as (((((E1 & E2) & E3) & E4) & E5) & E6).
  unfold same_shape in E1. destruct (list_eq_dec N.eq_dec xs ys) as [<-|]; [|discriminate].
  unfold full in E2, E3. cbn in E2, E3. apply N.eqb_eq in E2, E3.
  assert (Hl : length (map (fun p => fst p + snd p)%Z (combine l m)) = length l) by (rewrite map_length, combine_length; lia).
  eexists. split; [reflexivity|]. cbn [present flat_map app].
  split. { constructor; [split; [exact E2|apply forallb_in; exact E4]|]. constructor; [split; [exact E3|apply forallb_in; exact E5]|constructor]. }
  split. { split; [cbn; rewrite Hl; exact E2|apply forallb_in; exact E6]. }
  split.
  { intros _. eexists; eexists. split; [reflexivity|]. unfold add_of, arith. cbn [fd_vals fd_shape].
    split. { unfold twf. cbn [tdata tshape]. rewrite Hl. lia. }
    split. { unfold bshape. cbn. rewrite brev_self. cbn. rewrite rev_involutive. reflexivity. }
    cbn [tshape]. intros idx Hv. rewrite bproj_self by exact Hv. unfold get. cbn [tshape tdata]. pose proof (offset_lt _ _ Hv) as Ho.
    destruct (nth_error l (N.to_nat (offset xs idx))) as [a|] eqn:Ea; [|apply nth_error_None in Ea; lia].
    destruct (nth_error m (N.to_nat (offset xs idx))) as [b|] eqn:Eb; [|apply nth_error_None in Eb; lia].
    pose proof (nth_zip _ _ _ _ _ Ea Eb) as Hc. exists a, b, (a + b)%Z. repeat (split; [reflexivity || assumption|]).
    apply forallb_in in E6. rewrite Forall_forall in E6. apply E6. eapply nth_error_In; exact Hc. }
  repeat (split; [intros K; discriminate K|]). intros [K|[K|K]]; discriminate K.
Qed.

(** ** C36: folding shape computations *)

(** The pass: every value of the graph is what it was, and the outputs keep
    their names, whatever the input of the Shape nodes, as long as it has the
    known shape.  Missing: Shape nodes with an [end], and Slice nodes that go
    backwards; see the refutations. *)
Theorem C36_pass_partial : forall sem s nodes outputs s' nodes' outputs' e0 ef,
  constants_mean sem -> shapes_mean sem -> ssa e0 nodes -> store_ok s -> linked s nodes ->
  run sem (st_get s) e0 nodes = Some ef ->
  single_outputs ["Shape"; "Gather"; "Slice"] nodes -> exactly_typed ["Gather"] nodes ef -> shapes_known nodes (st_get s) ef -> apart nodes ->
  whole_shapes nodes -> forward_slices s nodes ->
  simplify_constant_shape s nodes outputs = Done (s', nodes', outputs') ->
  run sem (st_get s') e0 nodes' = Some ef /\ store_ok s' /\ linked s' nodes' /\ map aname outputs' = map aname outputs.
Proof.
  intros sem s nodes outputs s' nodes' outputs' e0 ef Hc Hm Hssa Hs Hl Hr H1 Ht Hk Ha Hw Hf H.
  eapply shape_run; eassumption.
Qed.
Print Assumptions C36_pass_partial.

Definition sx : arg := mkArg "x" (TensorT (mkTT F32 3 (Some [Some 2; Some 3; Some 4]))) VDynamic.
Definition c36_nodes : list rnode :=
  [mkNode "Constant" "c" [mkArg "" (ScalarNative I64) (VStatic 0)] [mkArg "k" (ScalarNative I64) VConstant] [];
   mkNode "Shape" "sh" [sx] [mkArg "s" (ShapeT 3) VDynamic] [];
   mkNode "Gather" "ga" [mkArg "s" (ShapeT 3) VDynamic; mkArg "k" (ScalarNative I64) VConstant] [mkArg "g" (ScalarNative I64) VDynamic] [];
   mkNode "Slice" "sl" [mkArg "s" (ShapeT 3) VDynamic; mkArg "" (ShapeT 1) (VStatic 1); mkArg "" (ShapeT 1) (VStatic 2)] [mkArg "t" (ShapeT 2) VDynamic] []].
Definition c36_store : store :=
  mkStore 3 [(0, mkFD [] (XI64 [-1]%Z)); (1, mkFD [1] (XI64 [-2]%Z)); (2, mkFD [1] (XI64 [9]%Z))] [("k", 0)].
Definition c36_input : string -> option fdata :=
  fun x => if String.eqb x "x" then Some (mkFD [2; 3; 4] (XF32 (repeat (f32_of_Z 7) 24))) else None.
Definition c36_outputs : list arg := [mkArg "g" (ScalarNative I64) VDynamic; mkArg "t" (ShapeT 2) VDynamic].

Example C36_ex :
  ssa c36_input c36_nodes /\ store_ok c36_store /\ linked c36_store c36_nodes /\
  apart c36_nodes /\ whole_shapes c36_nodes /\ forward_slices c36_store c36_nodes /\
  (exists ef, run ex_sem (st_get c36_store) c36_input c36_nodes = Some ef /\
     single_outputs ["Shape"; "Gather"; "Slice"] c36_nodes /\ exactly_typed ["Gather"] c36_nodes ef /\ settled_inputs c36_nodes (nth 2 c36_nodes (mkNode "" "" [] [] [])) /\
     shapes_known c36_nodes (st_get c36_store) ef /\
     ef "g" = Some (mkFD [] (XI64 [4]%Z)) /\ ef "t" = Some (mkFD [2] (XI64 [3; 4]%Z))) /\
  (exists s' outs, simplify_constant_shape c36_store c36_nodes c36_outputs =
     Done (s', [nth 0 c36_nodes (mkNode "" "" [] [] []); nth 1 c36_nodes (mkNode "" "" [] [] []);
                make_constant_node "ga" "g" (ScalarNative I64) 3; make_constant_node "sl" "t" (ShapeT 2) 4], outs) /\
     st_get s' 3 = Some (mkFD [] (XI64 [4]%Z)) /\ st_get s' 4 = Some (mkFD [2] (XI64 [3; 4]%Z))).
Proof.
  split. { split; [repeat constructor; cbn; intuition discriminate|]. intros x Hx. cbn in Hx. intuition (subst; reflexivity). }
  split. { split.
    - intros id d. unfold st_get, c36_store. cbn [st_data st_next find_id]. destruct (N.eqb_spec 0 id); [subst; intros; lia|]. destruct (N.eqb_spec 1 id); [subst; intros; lia|].
      destruct (N.eqb_spec 2 id); [subst; intros; lia|discriminate].
    - intros x id. cbn [c36_store st_const st_next sget]. destruct (String.eqb "k" x); [intros H; inversion H; reflexivity|discriminate]. }
  split. { intros n a id Hn Ha Hc Hid. cbn in Hn. intuition (subst; cbn in Ha; intuition (subst; try discriminate)).
    cbn in Hid. inversion Hid; subst. eexists; eexists; eexists. split; [left; reflexivity|]. repeat split; reflexivity. }
  split. { intros n a Hn Ha. cbn in Hn. intuition (subst; cbn in Ha; intuition (subst; cbn; try exact I; intuition discriminate)). }
  split. { intros n Hn Ht. destruct Hn as [<-|[<-|[<-|[<-|[]]]]]; reflexivity. }
  split. { intros n a v ks Hn Ht _ Ha. destruct Hn as [<-|[<-|[<-|[<-|[]]]]]; cbn in Ht, Ha; discriminate. }
  split.
  - eexists. split; [reflexivity|].
    split. { intros n Hn Ht. destruct Hn as [<-|[<-|[<-|[<-|[]]]]]; [exfalso; cbn in Ht; intuition discriminate| | |];
        eexists; reflexivity. }
    split. { intros n o r Hn Ht _ Ho Hr. destruct Hn as [<-|[<-|[<-|[<-|[]]]]]; try (exfalso; cbn in Ht; intuition discriminate).
        cbn in Ho. injection Ho as <-. vm_compute in Hr; inversion Hr; split; reflexivity. }
    split. { intros i Hi Hd. destruct Hi as [<-|[<-|[]]]; [|discriminate].
        apply (settled_shape _ (nth 1 c36_nodes (mkNode "" "" [] [] []))); [right; left; reflexivity|left; reflexivity|reflexivity]. }
    split. { intros n i more x s Hn Ht Hi Hx Hs. destruct Hn as [<-|[<-|[<-|[<-|[]]]]]; try discriminate Ht. cbn in Hi. inversion Hi; subst.
      vm_compute in Hs. inversion Hs; subst. cbn in Hx. inversion Hx; subst. reflexivity. }
    split; vm_compute; reflexivity.
  - eexists; eexists. split; [vm_compute; reflexivity|]. split; reflexivity.
Qed.

(** One Gather: the constant is the element of the shape list; an index from the
    end is right only when the Shape node has no [end]. *)
Theorem C36_gather_partial : forall value nodes n z,
  extract_dim value nodes n = Done z ->
  exists i0 i1 more m i mi s v k,
    ninputs n = i0 :: i1 :: more /\ In m nodes /\ In (aname i0) (map aname (noutputs m)) /\ ntype m = "Shape" /\
    ninputs m = i :: mi /\ ty_shape_known (aty i) = Some s /\ attr_int (nattrs n) "axis" 0 = 0%Z /\
    value i1 = Some v /\ scalar_i64 v = Done k /\
    forall z', (0 <= k)%Z \/ sget (nattrs m) "end" = None ->
      element (map Z.of_N (shape_value s (attr_int (nattrs m) "start" 0) (attr_int (nattrs m) "end" (Z.of_nat (length s))))) k z' -> z = z'.
Proof. exact extract_dim_ok. Qed.
Print Assumptions C36_gather_partial.

(** One Slice: the constant list is the slice of the shape list, forward, or
    backward from a start and to an end inside the list. *)
Theorem C36_slice_partial : forall value nodes n out,
  extract_slice value nodes n = Done out ->
  exists i0 i1 i2 more m i mi s starts ends axes steps,
    ninputs n = i0 :: i1 :: i2 :: more /\ In m nodes /\ In (aname i0) (map aname (noutputs m)) /\ ntype m = "Shape" /\
    ninputs m = i :: mi /\ ty_shape_known (aty i) = Some s /\
    value i1 = Some starts /\ value i2 = Some ends /\
    (match more with a :: _ => exists v, value a = Some v /\ to_i64_vec v = Some axes | [] => True end) /\
    (match more with _ :: a :: _ => exists v, value a = Some v /\ to_i64_vec v = Some steps | _ => steps = [1%Z] end) /\
    forall a b step,
      let d := Z.of_nat (length s) in
      let l := map Z.of_N (shape_value s (attr_int (nattrs m) "start" 0) (attr_int (nattrs m) "end" d)) in
      let len := Z.of_nat (length l) in
      to_i64_vec starts = Some [a] -> to_i64_vec ends = Some [b] -> steps = [step] ->
      (- d <= attr_int (nattrs m) "end" d)%Z ->
      (0 < step \/ (0 <= from_end len a < len /\ 0 <= from_end len b))%Z ->
      out = slice_list l a b step.
Proof. exact extract_slice_ok. Qed.
Print Assumptions C36_slice_partial.

Definition sh_node (d : list N) (attrs : list (string * attr)) : rnode :=
  mkNode "Shape" "sh" [mkArg "x" (TensorT (mkTT F32 (N.of_nat (length d)) (Some (map Some d)))) VDynamic] [mkArg "s" (ShapeT 3) VDynamic] attrs.
Definition ga_node (ty : argty) (k : list Z) : rnode :=
  mkNode "Gather" "ga" [mkArg "s" (ShapeT 3) VDynamic; mkArg "" (ShapeT 1) (VStatic 0)] [mkArg "g" ty VDynamic] [].
Definition sl_node (more : list arg) : rnode :=
  mkNode "Slice" "sl" ([mkArg "s" (ShapeT 3) VDynamic; mkArg "" (ShapeT 1) (VStatic 0); mkArg "" (ShapeT 1) (VStatic 1)] ++ more) [mkArg "t" (ShapeT 3) VDynamic] [].
Definition at_ (l : list (list Z)) (a : arg) : option fdata :=
  match asrc a with
  | VStatic i => match nth_error l (N.to_nat i) with Some k => Some (mkFD [N.of_nat (length k)] (XI64 k)) | None => None end
  | _ => None
  end.
Definition ax_ : arg := mkArg "" (ShapeT 1) (VStatic 2).
Definition st_ : arg := mkArg "" (ShapeT 1) (VStatic 3).

Example C36_slice_ex :
  extract_slice (at_ [[-1]; [-3]; [0]; [-1]]%Z) [sh_node [2; 3; 4; 5] []] (sl_node [ax_; st_]) = Done [5; 4]%Z
  /\ slice_list [2; 3; 4; 5]%Z (-1) (-3) (-1) = [5; 4]%Z
  /\ extract_slice (at_ [[0]; [100]; [0]; [2]]%Z) [sh_node [2; 3; 4; 5] [("start", AInt 1)]] (sl_node [ax_; st_]) = Done [3; 5]%Z.
Proof. vm_compute. repeat split. Qed.

(** The value of Shape then Gather, or Shape then Slice. *)
Definition gathered (d : list N) (attrs : list (string * attr)) (k z : Z) : Prop :=
  element (map Z.of_N (shape_value d (attr_int attrs "start" 0) (attr_int attrs "end" (Z.of_nat (length d))))) k z.
Definition sliced (d : list N) (attrs : list (string * attr)) (a b step : Z) : list Z :=
  slice_list (map Z.of_N (shape_value d (attr_int attrs "start" 0) (attr_int attrs "end" (Z.of_nat (length d))))) a b step.

(** [end] is ignored by an index from the end: dims [2;3;4], Shape with end=2 is
    [2;3], its last element is 3; the constant is 4. *)
Theorem C36_end_refuted : exists d attrs k z z',
  extract_dim (at_ [[k]]) [sh_node d attrs] (ga_node (ScalarNative I64) [k]) = Done z /\ gathered d attrs k z' /\ z <> z'.
Proof. exists [2; 3; 4], [("end", AInt 2)], (-1)%Z, 4%Z, 3%Z. split; [reflexivity|]. split; [|discriminate]. vm_compute. repeat split; discriminate. Qed.
Print Assumptions C36_end_refuted.
(** An index outside the list that [end] leaves is an error in ONNX; a value is made up. *)
Theorem C36_end_range_refuted : exists d attrs k z,
  extract_dim (at_ [[k]]) [sh_node d attrs] (ga_node (ScalarNative I64) [k]) = Done z /\ forall z', ~ gathered d attrs k z'.
Proof.
  exists [2; 3; 4], [("end", AInt 1)], 2%Z, 4%Z. split; [reflexivity|]. intros z' [_ H]. vm_compute in H. discriminate.
Qed.
Print Assumptions C36_end_range_refuted.
(** Two indices, result typed as a shape of length 1: only the first is looked up. *)
Theorem C36_two_indices_refuted : exists z,
  extract_dim (at_ [[0; 2]%Z]) [sh_node [2; 3; 4] []] (ga_node (ShapeT 1) [0; 2]%Z) = Done z /\
  shape_data [z] (ShapeT 1) <> mkFD [2] (XI64 [2; 4]%Z) /\ gathered [2; 3; 4] [] 0 2 /\ gathered [2; 3; 4] [] 2 4.
Proof. exists 2%Z. split; [reflexivity|]. split; [discriminate|]. vm_compute. repeat split; discriminate. Qed.
Print Assumptions C36_two_indices_refuted.
(** [start] beyond the rank: an empty shape in ONNX (any index is an error there);
    the import panics. *)
Theorem C36_start_panics_refuted : exists d attrs k,
  shape_value d (attr_int attrs "start" 0) (Z.of_nat (length d)) = [] /\
  extract_dim (at_ [[k]]) [sh_node d attrs] (ga_node (ScalarNative I64) [k]) = Panic.
Proof. exists [2; 3; 4], [("start", AInt 5)], 0%Z. split; reflexivity. Qed.
Print Assumptions C36_start_panics_refuted.
(** [end] below minus the rank is 0 in ONNX, and the rank here. *)
Theorem C36_end_below_refuted : exists d attrs a b r,
  extract_slice (at_ [[a]; [b]]) [sh_node d attrs] (sl_node []) = Done r /\ r <> sliced d attrs a b 1.
Proof. exists [2; 3; 4], [("end", AInt (-7))], 0%Z, 3%Z, [2; 3; 4]%Z. split; [reflexivity|discriminate]. Qed.
Print Assumptions C36_end_below_refuted.
(** Reversing a shape loses its first element: no end in range says "before the
    first", and the numbers that do in ONNX are clamped to 0. *)
Theorem C36_reverse_refuted : exists d a b r,
  extract_slice (at_ [[a]; [b]; [0]; [-1]]%Z) [sh_node d []] (sl_node [ax_; st_]) = Done r /\ r <> sliced d [] a b (-1).
Proof. exists [2; 3; 4], (-1)%Z, (-100)%Z, [4; 3]%Z. split; [reflexivity|discriminate]. Qed.
Print Assumptions C36_reverse_refuted.
(** A backward slice that starts beyond the end starts at the last element in
    ONNX; the import panics. *)
Theorem C36_reverse_panics_refuted : exists d a b,
  extract_slice (at_ [[a]; [b]; [0]; [-1]]%Z) [sh_node d []] (sl_node [ax_; st_]) = Panic /\ sliced d [] a b (-1) = [4; 3]%Z.
Proof. exists [2; 3; 4], 5%Z, 0%Z. split; reflexivity. Qed.
Print Assumptions C36_reverse_panics_refuted.
(** A Slice with no axes at all returns its input in ONNX; the import panics. *)
Theorem C36_no_axes_refuted : exists d, extract_slice (at_ [[]; []]) [sh_node d []] (sl_node []) = Panic.
Proof. exists [2; 3]. reflexivity. Qed.
Print Assumptions C36_no_axes_refuted.

(** ** C37: integer folding *)

(** The pass: every value of the graph is what it was.  Integer results of the
    graph are exact ([onnx_op]): overflow is undefined in ONNX.  Missing: the
    output types that are not exactly known, and panics; see below. *)
Theorem C37_pass_partial : forall sem s nodes outputs s' nodes' outputs' e0 ef,
  constants_mean sem -> folded_mean sem -> ssa e0 nodes -> store_ok s -> linked s nodes ->
  run sem (st_get s) e0 nodes = Some ef -> single_outputs folded_ops nodes -> exactly_typed folded_ops nodes ef ->
  fold_constants s nodes outputs = Done (s', nodes', outputs') ->
  run sem (st_get s') e0 nodes' = Some ef /\ store_ok s' /\ linked s' nodes' /\ map aname outputs' = map aname outputs.
Proof. exact fold_run. Qed.
Print Assumptions C37_pass_partial.

Definition ty2 : argty := TensorT (mkTT I64 1 (Some [Some 2])).
Definition c37_nodes : list rnode :=
  [mkNode "Constant" "c" [mkArg "" ty2 (VStatic 0)] [mkArg "a" ty2 VConstant] [];
   mkNode "Add" "ad" [mkArg "a" ty2 VConstant; mkArg "" ty2 (VStatic 1)] [mkArg "b" ty2 VDynamic] []].
Definition c37_store : store := mkStore 2 [(0, mkFD [2] (XI64 [3; -4]%Z)); (1, mkFD [2] (XI64 [10; 20]%Z))] [("a", 0)].
Definition no_input : string -> option fdata := fun _ => None.
Example C37_ex :
  ssa no_input c37_nodes /\ store_ok c37_store /\ linked c37_store c37_nodes /\
  (exists ef, run ex_sem (st_get c37_store) no_input c37_nodes = Some ef /\ single_outputs folded_ops c37_nodes /\ exactly_typed folded_ops c37_nodes ef /\
     ef "b" = Some (mkFD [2] (XI64 [13; 16]%Z))) /\
  (exists s' nodes' outs, fold_constants c37_store c37_nodes [mkArg "b" ty2 VDynamic] = Done (s', nodes', outs) /\
     nodes' = [nth 0 c37_nodes (mkNode "" "" [] [] []); make_constant_node "ad" "b" ty2 2] /\
     st_get s' 2 = Some (mkFD [2] (XI64 [13; 16]%Z)) /\ outs = [mkArg "b" ty2 VConstant]).
Proof.
  split. { split; [repeat constructor; cbn; intuition discriminate|]. reflexivity. }
  split. { split.
    - intros id d. unfold st_get, c37_store. cbn [st_data st_next find_id]. destruct (N.eqb_spec 0 id); [subst; intros; lia|]. destruct (N.eqb_spec 1 id); [subst; intros; lia|discriminate].
    - intros x id. cbn [c37_store c37_store st_const st_next sget]. destruct (String.eqb "a" x); [intros H; inversion H; reflexivity|discriminate]. }
  split. { intros n a id Hn Ha Hc Hid. cbn in Hn. intuition (subst; cbn in Ha; intuition (subst; try discriminate)).
    cbn in Hid. inversion Hid; subst. eexists; eexists; eexists. split; [left; reflexivity|]. repeat split; reflexivity. }
  split.
  - eexists. split; [reflexivity|]. split; [|split; [|reflexivity]].
    + intros n Hn Ht. destruct Hn as [<-|[<-|[]]]; [exfalso; cbn in Ht; intuition discriminate|]. eexists; reflexivity.
    + intros n o r Hn Ht _ Ho Hr. destruct Hn as [<-|[<-|[]]]; [exfalso; cbn in Ht; intuition discriminate|].
      cbn in Ho. injection Ho as <-. vm_compute in Hr; inversion Hr; split; reflexivity.
  - eexists; eexists; eexists. split; [vm_compute; reflexivity|]. repeat split; reflexivity.
Qed.

(** One node: where ONNX defines the result [r], the operands are not empty and
    one of them has as many elements as the result, the node is left alone or
    replaced by [r]; it never panics. *)
Theorem C37_node_partial : forall value n a b o os x y r,
  arithmetic (ntype n) x y r -> ninputs n = [a; b] -> noutputs n = o :: os -> value a = Some x -> value b = Some y ->
  fd_wf x -> fd_wf y -> exact_type (aty o) r ->
  vals_len (fd_vals x) <> 0%nat -> vals_len (fd_vals y) <> 0%nat ->
  vals_len (fd_vals r) = Nat.max (vals_len (fd_vals x)) (vals_len (fd_vals y)) ->
  try_evaluate value n = Skip \/ try_evaluate value n = Done (r, aty o).
Proof. exact arithmetic_eval. Qed.
Print Assumptions C37_node_partial.

(** Vectors of 64-bit integers: what comes out is exact and in range, never
    wrapped; the operands have the length of the result or length 1. *)
Theorem C37_exact_i64 : forall (op : binop) x y r,
  Forall in64 x -> Forall in64 y -> apply_binary (op_i64 op) x y = Done r ->
  length r = Nat.max (length x) (length y) /\ (length x = length r \/ length x = 1%nat) /\ (length y = length r \/ length y = 1%nat) /\
  forall k c, nth_error r k = Some c ->
    exists a b, nth_error x (if Nat.eqb (length x) 1 then 0 else k) = Some a /\ nth_error y (if Nat.eqb (length y) 1 then 0 else k) = Some b /\
      in64 c /\
      match op with BAdd => c = (a + b)%Z | BSub => c = (a - b)%Z | BMul => c = (a * b)%Z | BDiv => b <> 0%Z /\ c = Z.quot a b end.
Proof.
  intros op x y r Hx Hy H. destruct (apply_ok _ _ _ _ H) as (H1 & H2 & H3 & H4). repeat (split; [assumption|]).
  intros k c Hc. destruct (H4 _ _ Hc) as (a & b & Ha & Hb & Hf). unfold broadcast_get in Ha, Hb.
  apply op_i64_ok in Hf. destruct Hf as [Hz Hi]. exists a, b.
  split; [destruct (Nat.eqb (length x) 1); exact Ha|]. split; [destruct (Nat.eqb (length y) 1); exact Hb|].
  split; [apply Hi; rewrite Forall_forall in Hx; apply Hx; destruct (Nat.eqb (length x) 1); eapply nth_error_In; exact Ha|].
  destruct op; exact Hz.
Qed.
Print Assumptions C37_exact_i64.
Example C37_exact_ex : apply_binary (op_i64 BDiv) [-7; 8]%Z [2]%Z = Done [-3; 4]%Z /\ apply_binary (op_i64 BMul) [4611686018427387904]%Z [2]%Z = Skip
  /\ apply_binary (op_i64 BMul) [4611686018427387904]%Z [-2]%Z = Done [min64].
Proof. repeat split. Qed.

Definition bin_node (t : string) (ty : argty) : rnode :=
  mkNode t "n" [mkArg "" ty (VStatic 0); mkArg "" ty (VStatic 1)] [mkArg "o" ty VDynamic] [].
Definition of_ (l : list fdata) (a : arg) : option fdata := match asrc a with VStatic i => nth_error l (N.to_nat i) | _ => None end.
Definition i64s (l : list Z) : fdata := mkFD [N.of_nat (length l)] (XI64 l).
Definition i32s (l : list Z) : fdata := mkFD [N.of_nat (length l)] (XI32 l).
Definition vec_ (d : dtype) (n : N) : argty := TensorT (mkTT d 1 (Some [Some n])).

Ltac ranges := cbn [fd_vals i64s i32s]; repeat first [apply Forall_nil|apply Forall_cons; [split; discriminate|]].
Example C37_node_ex : arithmetic "Add" (i64s [1; 2]%Z) (i64s [5]%Z) (i64s [6; 7]%Z) /\
  fd_wf (i64s [1; 2]%Z) /\ fd_wf (i64s [5]%Z) /\ exact_type (vec_ I64 2) (i64s [6; 7]%Z) /\
  try_evaluate (of_ [i64s [1; 2]; i64s [5]]%Z) (bin_node "Add" (vec_ I64 2)) = Done (i64s [6; 7]%Z, vec_ I64 2).
Proof.
  split.
  { left. split; [reflexivity|]. unfold add_of, arith. cbn. split; [reflexivity|]. split; [reflexivity|].
    intros idx Hv. cbn in Hv. inversion Hv as [|i d idx' l' Hi Hn]; subst. inversion Hn; subst.
    assert (i = 0 \/ i = 1) as [-> | ->] by lia; eexists; eexists; eexists; (split; [reflexivity|]); (split; [reflexivity|]); (split; [reflexivity|]); split; [reflexivity|split; discriminate|reflexivity|split; discriminate]. }
  split; [split; [reflexivity|ranges]|]. split; [split; [reflexivity|ranges]|].
  split; [split; reflexivity|]. vm_compute. reflexivity.
Qed.

(** [i64::MIN / -1]. *)
Theorem C37_div_panics_refuted : exists x y, Forall in64 x /\ Forall in64 y /\
  try_evaluate (of_ [i64s x; i64s y]) (bin_node "Div" (vec_ I64 1)) = Panic.
Proof. exists [min64], [-1]%Z. split; [ranges|]. split; [ranges|]. reflexivity. Qed.
Print Assumptions C37_div_panics_refuted.
(** [- i64::MIN] wraps in a release build (it panics in a debug build). *)
Theorem C37_neg_wraps_refuted : exists x, Forall in64 x /\
  try_evaluate (of_ [i64s x]) (bin_node "Neg" (vec_ I64 1)) = Done (i64s x, vec_ I64 1) /\ map Z.opp x <> x.
Proof. exists [min64]. split; [ranges|]. split; [reflexivity|discriminate]. Qed.
Print Assumptions C37_neg_wraps_refuted.
(** 32-bit operands are computed in 64 bits and silently truncated. *)
Theorem C37_i32_wraps_refuted : exists x y r, Forall in32 x /\ Forall in32 y /\
  try_evaluate (of_ [i32s x; i32s y]) (bin_node "Add" (vec_ I32 1)) = Done (i32s r, vec_ I32 1) /\
  r <> map (fun p => fst p + snd p)%Z (combine x y).
Proof.
  exists [2147483647]%Z, [1]%Z, [-2147483648]%Z. split; [ranges|]. split; [ranges|].
  split; [reflexivity|discriminate].
Qed.
Print Assumptions C37_i32_wraps_refuted.
(** An empty operand and a single element: the result is empty; the import panics. *)
Theorem C37_empty_panics_refuted : exists x y, bshape (fd_shape x) (fd_shape y) = Some [0] /\ fd_wf x /\ fd_wf y /\
  try_evaluate (of_ [x; y]) (bin_node "Add" (vec_ I64 0)) = Panic.
Proof.
  exists (i64s []), (i64s [1]%Z). split; [reflexivity|]. split; [split; [reflexivity|constructor]|].
  split; [split; [reflexivity|ranges]|reflexivity].
Qed.
Print Assumptions C37_empty_panics_refuted.
(** A column and a row of equal length: two by two elements; the import panics. *)
Theorem C37_outer_panics_refuted : exists x y s, fd_wf x /\ fd_wf y /\ bshape (fd_shape x) (fd_shape y) = Some s /\
  try_evaluate (of_ [x; y]) (bin_node "Add" (TensorT (mkTT I64 2 (Some (map Some s))))) = Panic.
Proof.
  exists (mkFD [2; 1] (XI64 [1; 2]%Z)), (mkFD [1; 2] (XI64 [3; 4]%Z)), [2; 2].
  split; [split; [reflexivity|ranges]|].
  split; [split; [reflexivity|ranges]|]. split; reflexivity.
Qed.
Print Assumptions C37_outer_panics_refuted.
(** An output tensor whose dimensions are not all known: the shape of the
    constant is taken to be that of a scalar, and the import panics. *)
Theorem C37_unknown_shape_panics_refuted : exists x y ty, fd_wf x /\ fd_wf y /\ fd_shape x = fd_shape y /\ ty = TensorT (mkTT I64 1 None) /\
  try_evaluate (of_ [x; y]) (bin_node "Add" ty) = Panic.
Proof.
  exists (i64s [1; 2]%Z), (i64s [3; 4]%Z), (TensorT (mkTT I64 1 None)).
  split; [split; [reflexivity|ranges]|].
  split; [split; [reflexivity|ranges]|]. repeat split; reflexivity.
Qed.
Print Assumptions C37_unknown_shape_panics_refuted.
(** One element of such a tensor becomes a scalar. *)
Theorem C37_unknown_rank_refuted : exists x y d ty, fd_wf x /\ fd_wf y /\ fd_shape x = [1] /\ fd_shape y = [1] /\ ty = TensorT (mkTT I64 1 None) /\
  try_evaluate (of_ [x; y]) (bin_node "Add" ty) = Done (d, ty) /\ fd_shape d = [].
Proof.
  exists (i64s [1]%Z), (i64s [3]%Z), (mkFD [] (XI64 [4]%Z)), (TensorT (mkTT I64 1 None)).
  split; [split; [reflexivity|ranges]|].
  split; [split; [reflexivity|ranges]|]. repeat split; reflexivity.
Qed.
Print Assumptions C37_unknown_rank_refuted.

(** ** C38: float folding *)

(** Every pair of float32 numbers: computing in float64 and rounding gives what
    the float32 operator gives; division by zero is left alone. *)
Theorem C38_elements : forall (a b : f32),
  op_f64 BAdd (as_f64 a) (as_f64 b) = Done (add64 (as_f64 a) (as_f64 b)) /\ as_f32 (add64 (as_f64 a) (as_f64 b)) = add32 a b /\
  op_f64 BSub (as_f64 a) (as_f64 b) = Done (sub64 (as_f64 a) (as_f64 b)) /\ as_f32 (sub64 (as_f64 a) (as_f64 b)) = sub32 a b /\
  op_f64 BMul (as_f64 a) (as_f64 b) = Done (mul64 (as_f64 a) (as_f64 b)) /\ as_f32 (mul64 (as_f64 a) (as_f64 b)) = mul32 a b /\
  (is_zero b = true -> op_f64 BDiv (as_f64 a) (as_f64 b) = Skip) /\
  (is_zero b = false -> exists c, op_f64 BDiv (as_f64 a) (as_f64 b) = Done c /\ as_f32 c = div32 a b) /\
  as_f32 (sqrt64 (as_f64 a)) = sqrt32 a /\ as_f32 (neg64 (as_f64 a)) = neg32 a.
Proof.
  intros a b. repeat (split; [first [reflexivity|apply add_ok|apply sub_ok|apply mul_ok]|]).
  split. { cbn. rewrite zero_64. intros ->. reflexivity. }
  split. { cbn. rewrite zero_64. intros E. rewrite E. eexists. split; [reflexivity|]. apply div_ok. exact E. }
  split; [apply sqrt_ok|apply neg_ok].
Qed.
Print Assumptions C38_elements.

(** The float32 operators are correctly rounded. *)
Theorem C38_correctly_rounded : forall (a b : f32), is_finite a = true -> is_finite b = true ->
  rounded32 (B2R a + B2R b) (as_f32 (add64 (as_f64 a) (as_f64 b))) /\
  rounded32 (B2R a - B2R b) (as_f32 (sub64 (as_f64 a) (as_f64 b))) /\
  rounded32 (B2R a * B2R b) (as_f32 (mul64 (as_f64 a) (as_f64 b))) /\
  (B2R b <> 0%R -> rounded32 (B2R a / B2R b) (as_f32 (div64 (as_f64 a) (as_f64 b)))) /\
  ((0 <= B2R a)%R -> nearest32 (sqrt (B2R a)) (as_f32 (sqrt64 (as_f64 a)))).
Proof.
  intros a b Fa Fb. rewrite add_ok, sub_ok, mul_ok, sqrt_ok.
  split; [apply add_rounded; assumption|]. split; [apply sub_rounded; assumption|]. split; [apply mul_rounded; assumption|].
  split; [|apply sqrt_rounded; assumption]. intros Hb. rewrite div_ok by (destruct b; try reflexivity; exfalso; apply Hb; reflexivity). apply div_rounded; assumption.
Qed.
Print Assumptions C38_correctly_rounded.

(** Vectors, as the import computes them. *)
Theorem C38_vectors : forall value n op sa a sb b d ty,
  In (ntype n, op) [("Add", add32); ("Sub", sub32); ("Mul", mul32); ("Div", div32)] ->
  input_value value n 0 = Done (mkFD sa (XF32 a)) -> input_value value n 1 = Done (mkFD sb (XF32 b)) ->
  try_evaluate value n = Done (d, ty) ->
  exists c, d = mkFD (output_shape ty) (XF32 c) /\
    length c = Nat.max (length a) (length b) /\ (length a = length c \/ length a = 1%nat) /\ (length b = length c \/ length b = 1%nat) /\
    forall k w, nth_error c k = Some w ->
      exists u v, nth_error a (if Nat.eqb (length a) 1 then 0 else k) = Some u /\ nth_error b (if Nat.eqb (length b) 1 then 0 else k) = Some v /\ w = op u v.
Proof.
  intros value n op sa a sb b d ty Hop Hx Hy H.
  assert (G : exists bop, op = op32 bop /\ eval_binary value n bop = Done (d, ty)).
  { unfold try_evaluate in H. destruct Hop as [E|[E|[E|[E|[]]]]]; inversion E as [[E1 E2]]; rewrite <- E1 in H; cbn in H.
    - exists BAdd. split; [reflexivity|exact H].
    - exists BSub. split; [reflexivity|exact H].
    - exists BMul. split; [reflexivity|exact H].
    - exists BDiv. split; [reflexivity|exact H]. }
  destruct G as (bop & -> & G). unfold eval_binary in G. destruct (Nat.ltb _ _); [discriminate|]. rewrite Hx, Hy in G. cbn [ebind] in G.
  destruct (first_out n) as [| |ty']; cbn [ebind] in G; try discriminate.
  unfold fd_dtype, to_f64_vec in G. cbn [fd_vals try ebind] in G.
  destruct (apply_binary (op_f64 bop) (map as_f64 a) (map as_f64 b)) as [| |l] eqn:El; cbn [emap ebind] in G; try discriminate.
  unfold tensor_new in G. destruct (_ =? _); cbn [ebind] in G; [|discriminate]. inversion G; subst.
  destruct (apply_ok _ _ _ _ El) as (H1 & H2 & H3 & H4). rewrite !map_length in *.
  exists (map as_f32 l). rewrite map_length. repeat (split; [first [reflexivity|assumption]|]).
  intros k w Hw. rewrite nth_error_map in Hw. destruct (nth_error l k) as [c|] eqn:Ec; [|discriminate]. cbn in Hw. inversion Hw; subst.
  destruct (H4 _ _ Ec) as (u' & v' & Hu & Hv & Hf). unfold broadcast_get in Hu, Hv. rewrite map_length in Hu, Hv.
  assert (Ku : exists u, nth_error a (if Nat.eqb (length a) 1 then 0 else k) = Some u /\ u' = as_f64 u).
  { destruct (Nat.eqb (length a) 1); rewrite nth_error_map in Hu; (destruct (nth_error a _) as [u|]; [|discriminate]); exists u; split; [reflexivity|cbn in Hu; congruence|reflexivity|cbn in Hu; congruence]. }
  assert (Kv : exists v, nth_error b (if Nat.eqb (length b) 1 then 0 else k) = Some v /\ v' = as_f64 v).
  { destruct (Nat.eqb (length b) 1); rewrite nth_error_map in Hv; (destruct (nth_error b _) as [v|]; [|discriminate]); exists v; split; [reflexivity|cbn in Hv; congruence|reflexivity|cbn in Hv; congruence]. }
  destruct Ku as (u & Hu1 & ->). destruct Kv as (v & Hv1 & ->). exists u, v. split; [exact Hu1|]. split; [exact Hv1|].
  apply op_f32_ok. exact Hf.
Qed.
Print Assumptions C38_vectors.

(** Conversions that Cast folding makes round to nearest. *)
Theorem C38_cast_rounds : forall z (x : f64), in64 z -> is_finite x = true ->
  nearest32 (IZR z) (f32_of_Z z) /\ nearest64 (IZR z) (f64_of_Z z) /\ rounded32 (B2R x) (as_f32 x).
Proof. intros z x Hz Hx. split; [apply of_Z_near32; exact Hz|]. split; [apply of_Z_near64; exact Hz|apply as_f32_near; exact Hx]. Qed.
Print Assumptions C38_cast_rounds.

(** Casts from float to integer cut off the fraction, and numbers out of range go
    to the nearest end of the range (ONNX leaves them undefined); NaN becomes 0. *)
Theorem C38_cast_to_integer : forall lo hi (x : f64), (lo <= 0 <= hi)%Z ->
  (is_finite x = true -> f64_to_int lo hi x = Z.max lo (Z.min hi (Ztrunc (B2R x)))) /\
  f64_to_int lo hi (B754_infinity true) = lo /\ f64_to_int lo hi (B754_infinity false) = hi /\ f64_to_int lo hi B754_nan = 0%Z.
Proof. exact to_int_all. Qed.
Print Assumptions C38_cast_to_integer.
Theorem C38_cast_node : forall value n i o x d ty, ninputs n = [i] -> noutputs n = [o] -> value i = Some x ->
  ntype n = "Cast" -> try_evaluate value n = Done (d, ty) ->
  ty = aty o /\
  match fd_vals x, fd_vals d with
  | XF32 l, XI64 r => r = map (fun v => f64_to_int min64 max64 (as_f64 v)) l
  | XF64 l, XI64 r => r = map (f64_to_int min64 max64) l
  | XF32 l, XI32 r => r = map (fun v => f64_to_int min32 max32 (as_f64 v)) l
  | XF64 l, XI32 r => r = map (f64_to_int min32 max32) l
  | XI64 l, XF32 r | XI32 l, XF32 r => r = map f32_of_Z l
  | XI64 l, XF64 r | XI32 l, XF64 r => r = map f64_of_Z l
  | XF64 l, XF32 r => r = map as_f32 l
  | XF32 l, XF64 r => r = map as_f64 l
  | a, b => a = b
  end.
Proof. exact cast_node_ok. Qed.
Print Assumptions C38_cast_node.

Example C38_cast_ex : exists d, try_evaluate (of_ [mkFD [3] (XF32 [div32 (f32_of_Z (-7)) (f32_of_Z 2); B754_infinity true; B754_nan])])
    (bin_node "Cast" (vec_ I64 3)) = Done (d, vec_ I64 3) /\ fd_vals d = XI64 [-3; min64; 0]%Z.
Proof. eexists. split; [vm_compute; reflexivity|reflexivity]. Qed.

(** 1/3 and the square root of 2 in float32; an overflowing product; a sum that
    needs a tie rule (2^24 + 1). *)
Definition f32s (l : list Z) : fdata := mkFD [N.of_nat (length l)] (XF32 (map f32_of_Z l)).
Definition read32 (r : ev (fdata * argty)) : option (list N * list SpecFloat.spec_float) :=
  match r with Done (mkFD s (XF32 l), _) => Some (s, map B2SF l) | _ => None end.
Example C38_ex :
  B2SF (as_f32 (div64 (as_f64 (f32_of_Z 1)) (as_f64 (f32_of_Z 3)))) = SpecFloat.S754_finite false 11184811 (-25) /\
  B2SF (as_f32 (sqrt64 (as_f64 (f32_of_Z 2)))) = SpecFloat.S754_finite false 11863283 (-23) /\
  B2SF (add32 (f32_of_Z 16777216) (f32_of_Z 1)) = SpecFloat.S754_finite false 8388608 1 /\
  read32 (try_evaluate (of_ [f32s [1; 4]; f32s [2]]%Z) (bin_node "Div" (vec_ F32 2)))
    = Some ([2], [SpecFloat.S754_finite false 8388608 (-24); SpecFloat.S754_finite false 8388608 (-22)]).
Proof. repeat (split; [vm_compute; reflexivity|]). vm_compute. reflexivity. Qed.
