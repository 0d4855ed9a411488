(** C82: after type inference, producers and consumers agree, and no value is a
    tensor of rank zero. *)
From Verif Require Import IR_Model IR_Proofs Shapes_Spec Infer_Model Infer_Spec Infer_Proofs Agree_Spec.
Local Open Scope N_scope.
Local Open Scope string_scope.
Local Open Scope list_scope.

Lemma agree_refl a : agree a a.
Proof. destruct a; cbn; auto. Qed.
Lemma merge_agree ty x : agree ty (fst (merge_ty ty x)).
Proof.
  unfold merge_ty. destruct ty; try apply agree_refl. destruct x; try apply agree_refl.
  pose proof (merge_rank t t0) as [R D]. destruct (merge_tt t t0) as [r c]. cbn in *. auto.
Qed.
Lemma merge_knows ty x : knows ty (fst (merge_ty ty x)).
Proof.
  intros t l i d -> Hl Hi. unfold merge_ty. destruct x; try (exists t, l; solve [auto]).
  destruct (merge_known t t0 l i d Hl Hi) as (l' & H1 & H2).
  destruct (merge_tt t t0) as [r c]. cbn in *. exists r, l'. auto.
Qed.
Lemma rank_zero_agree a b : agree a b -> rank_zero b -> rank_zero a.
Proof. intros H (t & -> & Ht). destruct a; cbn in H; try contradiction. exists t0. split; [reflexivity|]. destruct H. congruence. Qed.

Lemma output_types_in nodes x ty : sget (output_types nodes) x = Some ty ->
  exists p o, In p nodes /\ In o (noutputs p) /\ aname o = x /\ aty o = ty.
Proof.
  unfold output_types.
  assert (I : forall outs m, sget (fold_left (fun m o => sput m (aname o) (aty o)) outs m) x = Some ty ->
    (exists o, In o outs /\ aname o = x /\ aty o = ty) \/ sget m x = Some ty).
  { induction outs as [|o outs IH]; intros m H; cbn in H; [now right|].
    destruct (IH _ H) as [(o' & H1 & H2)|H1]; [left; exists o'; split; [now right|exact H2]|].
    rewrite sget_sput in H1. destruct (String.eqb_spec (aname o) x) as [E|E]; [|now right].
    left. exists o. split; [now left|]. split; [exact E|congruence]. }
  assert (J : forall ns m, sget (fold_left (fun m n => fold_left (fun m o => sput m (aname o) (aty o)) (noutputs n) m) ns m) x = Some ty ->
    (exists p o, In p ns /\ In o (noutputs p) /\ aname o = x /\ aty o = ty) \/ sget m x = Some ty).
  { induction ns as [|n ns IH]; intros m H; cbn in H; [now right|].
    destruct (IH _ H) as [(p & o & H1 & H2)|H1]; [left; exists p, o; split; [now right|exact H2]|].
    destruct (I _ _ H1) as [(o & H2 & H3)|H2]; [|now right]. left. exists n, o. split; [now left|auto]. }
  intros H. destruct (J _ _ H) as [K|K]; [exact K|discriminate K].
Qed.
Lemma output_types_some nodes x : (exists p o, In p nodes /\ In o (noutputs p) /\ aname o = x) ->
  exists ty, sget (output_types nodes) x = Some ty.
Proof.
  unfold output_types. intros H.
  assert (I : forall outs m, ((exists o, In o outs /\ aname o = x) \/ exists ty, sget m x = Some ty) ->
    exists ty, sget (fold_left (fun m o => sput m (aname o) (aty o)) outs m) x = Some ty).
  { induction outs as [|o outs IH]; intros m K; cbn.
    - destruct K as [(o & [] & _)|K]; exact K.
    - apply IH. rewrite sget_sput. destruct (String.eqb_spec (aname o) x) as [E|E]; [right; now exists (aty o)|].
      destruct K as [(o' & [<-|K1] & K2)|K]; [contradiction|left; now exists o'|now right]. }
  assert (J : forall ns m, ((exists p o, In p ns /\ In o (noutputs p) /\ aname o = x) \/ exists ty, sget m x = Some ty) ->
    exists ty, sget (fold_left (fun m n => fold_left (fun m o => sput m (aname o) (aty o)) (noutputs n) m) ns m) x = Some ty).
  { induction ns as [|n ns IH]; intros m K; cbn.
    - destruct K as [(p & o & [] & _)|K]; exact K.
    - apply IH. destruct K as [(p & o & [<-|K1] & K2 & K3)|K].
      + right. apply I. left. now exists o.
      + left. now exists p, o.
      + right. apply I. now right. }
  apply J. now left.
Qed.

Section Run.
Variable infer : rnode -> list pkey -> option rnode.
Variable wants : rnode -> string -> list pref.
Variable spec : string -> node_spec.
Variable opset : N.

Lemma sweep_no_rank_zero : forall fuel pf todo out c,
  sweep infer spec opset fuel pf todo = Some (out, c) -> Forall (fun n => no_rank_zero n = true) out.
Proof.
  induction fuel as [|f IH]; intros pf [|n rest] out c H; cbn [sweep] in H; try discriminate H;
    try (injection H as <- _; constructor).
  destruct (validate_node_spec n opset (spec (ntype n))); [|discriminate H].
  destruct (infer n (pf n)) as [n'|]; [|discriminate H]. destruct (no_rank_zero n') eqn:E; [|discriminate H].
  destruct (push_outputs (noutputs n') rest) as [rest' c1].
  destruct (sweep infer spec opset f pf rest') as [[d c2]|] eqn:Es; [|discriminate H].
  injection H as <- _. constructor; [exact E|exact (IH _ _ _ _ Es)].
Qed.

(** The nodes an iteration ends with: outputs checked, inputs passed on. *)
Definition finished (nodes : list rnode) : Prop :=
  (forall n o, In n nodes -> In o (noutputs n) -> ~ rank_zero (aty o)) /\
  (forall n i, In n nodes -> In i (ninputs n) ->
     (exists p o, In p nodes /\ In o (noutputs p) /\ aname o = aname i) ->
     exists p o, In p nodes /\ In o (noutputs p) /\ aname o = aname i /\ agree (aty o) (aty i) /\ knows (aty o) (aty i)).

Lemma sync_finished nodes : Forall (fun n => no_rank_zero n = true) nodes -> finished (fst (sync_all nodes)).
Proof.
  intros H.
  assert (M : forall n3, In n3 (fst (sync_all nodes)) -> exists n2, In n2 nodes /\ noutputs n3 = noutputs n2 /\
    ninputs n3 = map (fun a => fst (sync_all_arg (output_types nodes) a)) (ninputs n2)).
  { unfold sync_all, map_flag. cbn [fst]. intros n3 Hn. apply in_map_iff in Hn. destruct Hn as (n2 & <- & H2).
    exists n2. repeat split; auto. }
  assert (B : forall p o, In p nodes -> In o (noutputs p) -> exists p3, In p3 (fst (sync_all nodes)) /\ In o (noutputs p3)).
  { intros p o Hp Ho. unfold sync_all, map_flag. cbn [fst]. eexists. split; [apply in_map; exact Hp|]. exact Ho. }
  split.
  - intros n o Hn Ho (t & Et & Hz). destruct (M n Hn) as (n2 & H2 & E & _). rewrite E in Ho.
    rewrite Forall_forall in H. specialize (H n2 H2). unfold no_rank_zero in H. rewrite forallb_forall in H.
    specialize (H o Ho). rewrite Et, Hz in H. discriminate H.
  - intros n i Hn Hi (p & o & Hp & Ho & Eo). destruct (M n Hn) as (n2 & H2 & _ & E). rewrite E in Hi.
    apply in_map_iff in Hi. destruct Hi as (a & <- & Ha).
    assert (Na : forall m, aname (fst (sync_all_arg m a)) = aname a).
    { intros m. unfold sync_all_arg, sync_arg. destruct (sget m (aname a)); [|reflexivity].
      rewrite String.eqb_refl. destruct (ty_eqb _ _); reflexivity. }
    rewrite Na in *.
    destruct (M p Hp) as (p2 & Hp2 & Ep & _). rewrite Ep in Ho.
    destruct (output_types_some nodes (aname a)) as [ty Hty]; [now exists p2, o|].
    destruct (output_types_in _ _ _ Hty) as (q & w & Hq & Hw & Ew & Tw).
    destruct (B q w Hq Hw) as (q3 & Hq3 & Hw3). exists q3, w. repeat (split; [assumption|]).
    assert (T : aty (fst (sync_all_arg (output_types nodes) a)) = fst (merge_ty ty (aty a))).
    { unfold sync_all_arg. rewrite Hty. unfold sync_arg. rewrite String.eqb_refl.
      destruct (ty_eqb (aty a) (fst (merge_ty ty (aty a)))) eqn:Q; [exact (ty_eqb_eq _ _ Q)|reflexivity]. }
    rewrite T, Tw. split; [apply merge_agree|apply merge_knows].
Qed.
Lemma iteration_finished first nodes coll nodes' coll' b :
  iteration infer wants spec opset first nodes coll = Some (nodes', coll', b) -> finished nodes'.
Proof.
  unfold iteration. destruct (sweep infer spec opset _ _ _) as [[nodes2 c1]|] eqn:E; [|discriminate].
  pose proof (sync_finished nodes2 (sweep_no_rank_zero _ _ _ _ _ E)) as F.
  destruct (sync_all nodes2) as [nodes3 c2]. intros H. injection H as <- _ _. exact F.
Qed.
Lemma iterate_finished : forall n first nodes coll nodes' coll' b k,
  iterate infer wants spec opset (S n) first nodes coll = Some (nodes', coll', b, k) -> finished nodes'.
Proof.
  induction n as [|n IH]; intros first nodes coll nodes' coll' b k H; cbn [iterate] in H;
    destruct (iteration infer wants spec opset first nodes coll) as [[[n1 c1] s]|] eqn:E; try discriminate H;
    destruct s.
  - injection H as <- _ _ _. exact (iteration_finished _ _ _ _ _ _ E).
  - injection H as <- _ _ _. exact (iteration_finished _ _ _ _ _ _ E).
  - injection H as <- _ _ _. exact (iteration_finished _ _ _ _ _ _ E).
  - change (match iterate infer wants spec opset (S n) false n1 c1 with
            | Some (ns, c, b, i) => Some (ns, c, b, S i) | None => None end = Some (nodes', coll', b, k)) in H.
    destruct (iterate infer wants spec opset (S n) false n1 c1) as [[[[n2 c2] b2] i2]|] eqn:E2; [|discriminate H].
    injection H as <- _ _ _. exact (IH _ _ _ _ _ _ _ E2).
Qed.
End Run.

(** When inference succeeds, converged or not, no output of a node is a tensor
    of rank zero. *)
Theorem C82_outputs : forall infer wants spec opset nodes nodes' prefs b sweeps n o,
  infer_types infer wants spec opset nodes = Some (nodes', prefs, b, sweeps) ->
  In n nodes' -> In o (noutputs n) -> ~ rank_zero (aty o).
Proof.
  intros infer wants spec opset nodes nodes' prefs b sweeps n o H Hn Ho.
  exact (proj1 (iterate_finished _ _ _ _ _ _ _ _ _ _ _ _ H) n o Hn Ho).
Qed.
Print Assumptions C82_outputs.

(** Every input that reads the output of a node has its kind, element type and
    rank, and knows every dimension it knows. *)
Theorem C82_inputs : forall infer wants spec opset nodes nodes' prefs b sweeps n i p o,
  infer_types infer wants spec opset nodes = Some (nodes', prefs, b, sweeps) ->
  In n nodes' -> In i (ninputs n) -> In p nodes' -> In o (noutputs p) -> aname o = aname i ->
  (forall p' o', In p' nodes' -> In o' (noutputs p') -> aname o' = aname o -> aty o' = aty o) ->
  agree (aty o) (aty i) /\ knows (aty o) (aty i) /\ ~ rank_zero (aty i).
Proof.
  intros infer wants spec opset nodes nodes' prefs b sweeps n i p o H Hn Hi Hp Ho E U.
  destruct (iterate_finished _ _ _ _ _ _ _ _ _ _ _ _ H) as [F1 F2].
  destruct (F2 n i Hn Hi) as (q & w & Hq & Hw & Ew & A & K); [now exists p, o|].
  rewrite (U q w Hq Hw) in A, K by congruence. split; [exact A|]. split; [exact K|].
  intros Z. exact (F1 p o Hp Ho (rank_zero_agree _ _ A Z)).
Qed.
Print Assumptions C82_inputs.

(** Also when several nodes have an output of that name, with other types: the
    input has the type of one of them. *)
Theorem C82_shared_name : forall infer wants spec opset nodes nodes' prefs b sweeps n i p o,
  infer_types infer wants spec opset nodes = Some (nodes', prefs, b, sweeps) ->
  In n nodes' -> In i (ninputs n) -> In p nodes' -> In o (noutputs p) -> aname o = aname i ->
  (exists q w, In q nodes' /\ In w (noutputs q) /\ aname w = aname i /\
     agree (aty w) (aty i) /\ knows (aty w) (aty i)) /\ ~ rank_zero (aty i).
Proof.
  intros infer wants spec opset nodes nodes' prefs b sweeps n i p o H Hn Hi Hp Ho E.
  destruct (iterate_finished _ _ _ _ _ _ _ _ _ _ _ _ H) as [F1 F2].
  destruct (F2 n i Hn Hi) as (q & w & Hq & Hw & Ew & A & K); [now exists p, o|].
  split; [now exists q, w|]. intros Z. exact (F1 q w Hq Hw (rank_zero_agree _ _ A Z)).
Qed.
Print Assumptions C82_shared_name.

(** ** Case: a chain whose consumer stands first and does not know its input. *)
Definition copy (n : rnode) (_ : list pkey) : option rnode :=
  match ninputs n, noutputs n with
  | i :: _, o :: r => Some (mkNode (ntype n) (nname n) (ninputs n) (set_ty o (aty i) :: r) (nattrs n))
  | _, _ => Some n
  end.
Definition free (t : string) : node_spec := mkSpec 1 None (IAtLeast 0) (ORange 0 9).
Definition vec := TensorT (mkTT F32 2 (Some [Some 4; None])).
Definition pair_of (x : argty) : list rnode :=
  [mkNode "Relu" "second" [mkArg "h" (TensorT (mkTT F32 1 None)) VDynamic] [mkArg "y" (TensorT (mkTT F32 1 None)) VDynamic] [];
   mkNode "Relu" "first" [mkArg "x" x VDynamic] [mkArg "h" (TensorT (mkTT F32 1 None)) VDynamic] []].
Example C82_case : exists nodes' prefs sweeps,
  infer_types copy (fun _ _ => []) free 17 (pair_of vec) = Some (nodes', prefs, true, sweeps) /\
  exists n i p o, In n nodes' /\ In i (ninputs n) /\ In p nodes' /\ In o (noutputs p) /\ aname o = aname i /\ aty i = vec /\
    forall p' o', In p' nodes' -> In o' (noutputs p') -> aname o' = aname o -> aty o' = aty o.
Proof.
  eexists _, _, _. split; [reflexivity|]. eexists _, _, _, _.
  split; [left; reflexivity|]. split; [left; reflexivity|]. split; [right; left; reflexivity|]. split; [left; reflexivity|]. split; [reflexivity|]. split; [reflexivity|].
  intros p' o' [<-|[<-|[]]] [<-|[]] E; [discriminate E|reflexivity].
Qed.
(** A processor that makes a tensor of rank zero is stopped. *)
Example C82_case_refused : infer_types copy (fun _ _ => []) free 17 (pair_of (TensorT (mkTT F32 0 None))) = None.
Proof. reflexivity. Qed.
