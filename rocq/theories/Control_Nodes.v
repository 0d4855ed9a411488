(** The code of each node of a graph with control flow, and of whole graphs. *)
From Coq Require Import Lia ZifyBool ZifyNat ZifyN.
From Verif Require Import ShapeRun_Spec ShapeRun_Model ShapeRun_Proofs Index_Spec.
From Verif Require Import TensorRun_Spec TensorRun_Model TensorRun_Proofs TensorRun_Nodes.
From Verif Require Import Control_Spec Control_Model Control_Cover Control_Proofs.
Import Tensor_Spec BinOps_Spec RankOps_Spec ShapeRun_Spec TensorRun_Spec Control_Spec Control_Model Control_Cover Control_Proofs.
Open Scope string_scope.
Open Scope list_scope.

(** ** Stacking the collected values *)
Lemma F2_rev {A B} (R : A -> B -> Prop) l m : Forall2 R l m -> Forall2 R (rev l) (rev m).
Proof. induction 1; cbn; [constructor|]. apply Forall2_app; [assumption|]. constructor; [assumption|constructor]. Qed.
Lemma tensors_of T rs (col : list otensor) : Forall2 (fun r t => stands_for (fst t) (TensorT T) r (snd t)) rs col ->
  mapo tensor_of rs = Some (map snd col) /\
  Forall (fun t => fst t = tt_dtype T /\ N.of_nat (length (tshape (snd t))) = tt_rank T /\ twf (snd t) /\ Forall (in_dtype (fst t)) (tdata (snd t))) col.
Proof.
  induction 1 as [|r t rs col H _ [IH1 IH2]]; [split; [reflexivity|constructor]|]. destruct r as [x|z|l]; try (destruct H as (_ & _ & []); fail).
  destruct H as (W & F & -> & Ed & El & _). cbn [mapo tensor_of map]. rewrite IH1. split; [reflexivity|]. constructor; [|exact IH2]. auto.
Qed.
Lemma all2_eqb : forall s u : list N, all2 N.eqb s u = if list_eq_dec N.eq_dec s u then true else false.
Proof.
  assert (K : forall s u, all2 N.eqb s u = true <-> s = u).
  { unfold all2. induction s as [|x s IH]; intros [|y u]; cbn; split; intros H; try discriminate H; try reflexivity.
    - apply andb_prop in H as [H1 H2]. apply andb_prop in H2 as [H2 H3]. apply N.eqb_eq in H2. f_equal; [exact H2|]. apply IH. rewrite H3, andb_true_r. exact H1.
    - injection H as -> H. rewrite N.eqb_refl. apply IH in H. exact H. }
  intros s u. destruct (list_eq_dec N.eq_dec s u) as [E|E]; [apply K, E|]. destruct (all2 N.eqb s u) eqn:A; [|reflexivity]. apply K in A. contradiction.
Qed.
Lemma forallb_same {A} (f g : A -> bool) l : (forall a, f a = g a) -> forallb f l = forallb g l.
Proof. intros H. induction l as [|a l IH]; cbn; [reflexivity|]. rewrite H, IH. reflexivity. Qed.
Lemma stacked_stack a ts : stacked a ts = b_stack (N.of_nat a) ts.
Proof.
  unfold stacked, b_stack. cbv zeta. rewrite Nat2N.id. destruct ts as [|t ts]; [reflexivity|].
  erewrite (forallb_same (fun u => if list_eq_dec N.eq_dec (tshape u) (tshape t) then true else false)); [|intros u; symmetry; apply all2_eqb].
  destruct (_ && _); [|reflexivity]. apply Tensor_Proofs.tab_ext. intros idx _. destruct (nth_error _ _); reflexivity.
Qed.
Lemma stack_ok T rs (col : list otensor) axis (back : bool) v : Forall2 (fun r t => stands_for (fst t) (TensorT T) r (snd t)) rs col ->
  (0 <= axis <= 9223372036854775807)%Z ->
  (let r := S (length (tshape (snd (hd (int_value 0) col)))) in if axis_ok r axis then stacked_values (position r axis) (if back then rev col else col) else None) = Some v ->
  obind (mapo tensor_of (if back then rev rs else rs)) (b_stack (usize axis)) = Some (snd v) /\
  (forall U, tt_dtype U = tt_dtype T -> (tt_rank U = tt_rank T + 1)%N -> stands_for (fst v) (TensorT U) (RTensor (snd v)) (snd v)).
Proof.
  cbv zeta. intros H Ha Hv. destruct (axis_ok _ axis) eqn:Ao; [|discriminate Hv]. destruct (axis_small _ _ Ha Ao) as (Ua & Pa & _). rewrite Ua.
  set (p := position _ axis) in *. set (rs' := if back then rev rs else rs). set (col' := if back then rev col else col) in *.
  assert (H' : Forall2 (fun r t => stands_for (fst t) (TensorT T) r (snd t)) rs' col') by (unfold rs', col'; destruct back; [apply F2_rev|]; exact H).
  destruct (tensors_of T rs' col' H') as [M Al]. rewrite M. cbn [obind]. rewrite <- stacked_stack. unfold stacked_values in Hv.
  destruct (same_dtype col') as [d|] eqn:Sd; [|discriminate Hv]. destruct (stacked p (map snd col')) as [x|] eqn:Sx; [|discriminate Hv]. injection Hv as <-. cbn [fst snd].
  split; [reflexivity|]. intros U Ud Ur.
  destruct col' as [|c0 cs]; [discriminate Sd|]. cbn [same_dtype] in Sd. destruct (forallb _ _) eqn:Fd in Sd; [|discriminate Sd]. injection Sd as <-.
  apply Forall_cons_iff in Al as [(D0 & L0 & W0 & F0) Al]. cbn [map stacked] in Sx.
  destruct ((p <=? length (tshape (snd c0)))%nat && _) eqn:G in Sx; [|discriminate Sx]. apply andb_prop in G as [Lp _]. apply Nat.leb_le in Lp.
  pose proof (Tensor_Proofs.tab_wf _ _ _ Sx) as [Wx Shx]. split; [exact Wx|]. split; [|split; [reflexivity|split; [congruence|split]]].
  - apply (tab_elems _ _ _ _ Sx). intros idx w Hw. destruct (nth_error (snd c0 :: map snd cs) _) as [u|] eqn:Eu; [|discriminate Hw].
    assert (Fu : Forall (in_dtype (fst c0)) (tdata u)).
    { apply nth_error_In in Eu. destruct Eu as [<-|Eu]; [exact F0|]. apply in_map_iff in Eu as (c1 & <- & Hc1). destruct (proj1 (Forall_forall _ _) Al c1 Hc1) as (D1 & _ & _ & F1).
      rewrite D0, <- D1. exact F1. }
    unfold get in Hw. apply nth_error_In in Hw. exact (proj1 (Forall_forall _ _) Fu _ Hw).
  - rewrite Shx, !app_length, firstn_length, skipn_length. cbn [length]. lia.
  - lia.
Qed.

Definition stack_code (cfg : scan_cfg) (ks : list nat) : list cstmt :=
  flat_map (fun k => (if Z.eqb (nth k (sc_out_dirs cfg) 0%Z) 1 then [SReverse (collector "scan_output_collector_" k)] else []) ++
                     [SLet (collector "scan_output_" k) (EStack (collector "scan_output_collector_" k) (usize (nth k (sc_out_axes cfg) 0%Z)))]) ks.
Notation coll := (collector "scan_output_collector_").
Notation outv := (collector "scan_output_").
Definition stack_of (cfg : scan_cfg) (k : nat) (col : list otensor) : option otensor :=
  let r := S (length (tshape (snd (hd (int_value 0) col)))) in let axis := nth k (sc_out_axes cfg) 0%Z in
  if axis_ok r axis then stacked_values (position r axis) (if (nth k (sc_out_dirs cfg) 0 =? 1)%Z then rev col else col) else None.
Lemma stacks_ok cfg e0 : Forall (fun a => 0 <= a <= 9223372036854775807)%Z (sc_out_axes cfg) -> forall scouts scans s lp F,
  length scans = length scouts ->
  (forall k o, nth_error scouts k = Some o -> exists rs col T, aty o = TensorT T /\ look F (coll (s + k)) = Some (VVec rs) /\
     Forall2 (fun r t => stands_for (fst t) (aty o) r (snd t)) rs col /\ stack_of cfg (s + k) col = nth_error scans k) ->
  (forall x, In x (map fst lp) -> exists j, (j < s)%nat /\ x = outv j) ->
  exists lp' F', ends (stack_code cfg (seq s (length scouts))) (lp ++ F ++ e0) (lp' ++ lp ++ F' ++ e0) /\ map fst F' = map fst F /\
    (forall x, In x (map fst lp') -> exists j, (s <= j)%nat /\ x = outv j) /\ (forall y, (forall k, y <> coll k) -> look F' y = look F y) /\
    (forall k o v T U, nth_error scouts k = Some o -> nth_error scans k = Some v -> aty o = TensorT T -> tt_dtype U = tt_dtype T -> (tt_rank U = tt_rank T + 1)%N ->
       held lp' (outv (s + k)) (TensorT U) v).
Proof.
  intros Ap. induction scouts as [|o scouts IH]; intros scans s lp F Ls Hk Hlp.
  { exists [], F. split; [apply ends_nil|]. split; [reflexivity|]. split; [intros x []|]. split; [reflexivity|]. intros [|k] ? ? ? ? E; discriminate E. }
  destruct scans as [|v scans]; [discriminate Ls|].
  destruct (Hk 0%nat o eq_refl) as (rs & col & T & ET & Lr & Hr & Hst). rewrite Nat.add_0_r in Lr, Hst. cbn [nth_error] in Hst. rewrite ET in Hr.
  assert (NC : ~ In (coll s) (map fst lp)). { intros K. destruct (Hlp _ K) as (j & _ & E). exact (coll_out _ _ E). }
  destruct (stack_ok T rs col _ _ v Hr (axis_nth _ s Ap) Hst) as [Ev Sv].
  set (rs' := if (nth s (sc_out_dirs cfg) 0 =? 1)%Z then rev rs else rs) in *.
  assert (Rv : exists F1, ends (if (nth s (sc_out_dirs cfg) 0 =? 1)%Z then [SReverse (coll s)] else []) (lp ++ F ++ e0) (lp ++ F1 ++ e0) /\
                 map fst F1 = map fst F /\ (forall y, look F1 y = if String.eqb y (coll s) then Some (VVec rs') else look F y)).
  { unfold rs'. destruct (_ =? 1)%Z.
    - destruct (assign_in (coll s) (VVec (rev rs)) F (VVec rs) Lr eq_refl) as (F1 & G1 & G2 & G3). exists F1. split; [|split; assumption].
      apply ends_one. cbn [simple]. rewrite look_past, (look_frame _ _ _ _ Lr) by exact NC. apply G1, NC.
    - exists F. split; [apply ends_nil|]. split; [reflexivity|]. intros y. destruct (String.eqb_spec y (coll s)) as [->|]; [exact Lr|reflexivity]. }
  destruct Rv as (F1 & G1 & G2 & G3).
  destruct (IH scans (S s) ((outv s, V (RTensor (snd v))) :: lp) F1) as (lp' & F' & R1 & R2 & R3 & R4 & R5).
  - cbn in Ls. lia.
  - intros k o' Ho. destruct (Hk (S k) o' Ho) as (rs1 & col1 & T1 & A1 & A2 & A3 & A4). replace (s + S k)%nat with (S s + k)%nat in * by lia.
    exists rs1, col1, T1. split; [exact A1|]. split; [|split; [exact A3|exact A4]]. rewrite G3.
    destruct (String.eqb_spec (coll (S s + k)) (coll s)) as [K|]; [apply coll_inj in K; lia|exact A2].
  - intros x [<-|Hx]; [exists s; split; [lia|reflexivity]|]. destruct (Hlp x Hx) as (j & Hj & E). exists j. split; [lia|exact E].
  - exists (lp' ++ [(outv s, V (RTensor (snd v)))]), F'. split; [|split; [congruence|split; [|split]]].
    + cbn [length seq stack_code flat_map]. rewrite <- app_assoc. eapply ends_app; [exact G1|]. cbn [app].
      rewrite <- app_assoc. cbn [app]. eapply ends_simple; [|exact R1]. cbn [simple eval]. rewrite look_past by exact NC. rewrite look_app, G3, String.eqb_refl.
      destruct (mapo tensor_of rs') as [ts|]; cbn [obind] in Ev |- *; [|discriminate Ev]. rewrite Ev. reflexivity.
    + intros x Hx. rewrite map_app, in_app_iff in Hx. destruct Hx as [Hx|[<-|[]]]; [|exists s; split; [lia|reflexivity]]. destruct (R3 x Hx) as (j & Hj & E). exists j. split; [lia|exact E].
    + intros y Hy. rewrite R4, G3 by exact Hy. destruct (String.eqb_spec y (coll s)) as [K|]; [elim (Hy s K)|reflexivity].
    + intros [|k] o' v' T' U E1 E2 E3 E4 E5; cbn in E1, E2.
      * injection E1 as <-. injection E2 as <-. rewrite ET in E3. injection E3 as <-. rewrite Nat.add_0_r.
        apply held_past; [intros K; destruct (R3 _ K) as (j & Hj & E); apply out_inj in E; lia|].
        exists (RTensor (snd v)). cbn [look]. rewrite String.eqb_refl. split; [reflexivity|]. apply Sv; assumption.
      * replace (s + S k)%nat with (S s + k)%nat by lia. apply held_frame. eapply R5; eassumption.
Qed.

(** ** Block results and initial values *)
Lemma results_ok e : forall fs ts, Forall2 (held_arg e) fs ts -> exists rs, mapo (eval e) (map (fun a => EVar (aname a)) fs) = Some (map V rs) /\ all_stand fs rs ts.
Proof.
  induction 1 as [|f t fs ts (r & E & Sr) _ (rs & M & A)]; [exists []; split; [reflexivity|exact I]|]. exists (r :: rs). cbn [map mapo eval]. rewrite E, M. split; [reflexivity|]. split; assumption.
Qed.
Lemma all_stand_same : forall fs os rs ts, Forall2 (fun f o => same_type (aty f) (aty o)) fs os -> all_stand fs rs ts -> all_stand os rs ts.
Proof.
  intros fs os rs ts H. revert rs ts. induction H as [|f o fs os S _ IH]; intros [|r rs] [|t ts] A; cbn in A |- *; try contradiction; [exact I|].
  destruct A as [A1 A2]. split; [eapply stands_same; eassumption|apply IH, A2].
Qed.
Lemma all_stand_app : forall o1 r1 t1 o2 r2 t2, all_stand o1 r1 t1 -> all_stand o2 r2 t2 -> all_stand (o1 ++ o2) (r1 ++ r2) (t1 ++ t2).
Proof. induction o1 as [|o o1 IH]; intros [|r r1] [|t t1] o2 r2 t2 A B; cbn in A; try contradiction; [exact B|]. destruct A. split; [assumption|apply IH; assumption]. Qed.
Lemma inits_ok : forall fs is vs ce, Forall2 (held_arg ce) is vs -> Forall2 (fun f i => same_type (aty i) (aty f)) fs is -> NoDup (names fs) ->
  (forall x, In x (names fs) -> ~ In x (names is)) ->
  exists l, ends (gen_inits fs is) ce (l ++ ce) /\ (forall x, In x (map fst l) -> In x (names fs)) /\ Forall2 (held_arg l) fs vs.
Proof.
  induction fs as [|f fs IH]; intros is vs ce Hv Ty Nd Dj.
  { inversion Ty; subst. inversion Hv; subst. exists []. split; [apply ends_nil|]. split; [intros x []|constructor]. }
  inversion Ty as [|? i ? is' T1 T2]; subst. inversion Hv as [|? v ? vs' H1 H2]; subst. clear Ty Hv. rename is' into is, vs' into vs.
  cbn [names map] in Nd. apply NoDup_cons_iff in Nd as [Nf Nd]. destruct H1 as (r & Er & Sr).
  destruct (IH is vs ((aname f, V r) :: ce)) as (l & R1 & R2 & R3).
  - eapply F2_impl; [|exact H2]. intros a t Ha (r' & E & S'). exists r'. split; [|exact S']. cbn [look].
    destruct (String.eqb_spec (aname a) (aname f)) as [K|]; [|exact E]. elim (Dj (aname f) (or_introl eq_refl)). right. rewrite <- K. apply names_in, Ha.
  - exact T2.
  - exact Nd.
  - intros x Hx K. apply (Dj x (or_intror Hx)). right. exact K.
  - exists (l ++ [(aname f, V r)]). rewrite <- app_assoc. split; [|split].
    + unfold gen_inits. cbn [combine map fst snd]. eapply ends_simple; [cbn [simple eval]; rewrite Er; reflexivity|exact R1].
    + intros x Hx. rewrite map_app, in_app_iff in Hx. destruct Hx as [Hx|[<-|[]]]; [right; apply R2, Hx|left; reflexivity].
    + constructor.
      * apply held_past; [intros K; apply Nf, R2, K|]. exists r. cbn [look]. rewrite String.eqb_refl. split; [reflexivity|]. eapply stands_same; eassumption.
      * eapply F2_impl; [|exact R3]. intros a t _ K. apply held_frame, K.
Qed.
Lemma condition_ok e c v b cond : held_arg e c v -> condition_type (aty c) -> truth v = Some b -> gen_condition c = Some cond -> eval e cond = Some (V (RNative (EB b))).
Proof.
  intros (r & Er & Sr) Ct Tr Gc. destruct v as [d [s x]]. cbn in Tr. destruct d; try discriminate Tr. destruct x as [|[z|b'|y] [|? ?]]; try discriminate Tr.
  destruct (prodN s =? 1)%N eqn:Pr; [|discriminate Tr]. injection Tr as ->. unfold gen_condition in Gc.
  destruct (aty c) as [d|d|k|t]; try contradiction; injection Gc as <-; cbn [eval]; unfold tens, vars; rewrite Er; destruct r as [u|w|l]; try (destruct Sr as (_ & _ & []); fail); destruct Sr as (_ & _ & Sr); cbn [fst snd tshape tdata] in Sr.
  - destruct Sr as (_ & _ & ->). reflexivity.
  - destruct Sr as (_ & E). injection E as _ ->. reflexivity.
  - destruct Sr as (-> & _). reflexivity.
Qed.

Section Nodes.
  Variable value : arg -> option cval.
  Variable opset : N.
  Notation constant := (constant_of value).
  Notation step := (fun n ins outs => onnx_any_node n ins outs /\ covered_any (fun a => constant_of value a <> None) n ins outs).
  Notation Pgraph := (Pgraph value opset).
  Notation Pnodes := (Pnodes value opset).
  Notation Pstep := (Pstep value opset).
  Notation Ploop := (Ploop value opset).
  Notation Pscan := (Pscan value opset).

  Lemma not_constant n ins outs : covered_any (fun a => constant_of value a <> None) n ins outs -> ntype n <> "Constant".
  Proof.
    intros C E. destruct C as [ins out _ C| | | | | | | | | | | | | | | | | |]; try (rewrite E in *; discriminate).
    destruct C; try (rewrite E in *; discriminate); match goal with H : binary_node _ = Some _ |- _ => unfold binary_node in H; rewrite E in H; discriminate H end.
  Qed.

  (** *** Lists of nodes *)
  Lemma nodes_nil e : Pnodes e [] e.
  Proof. intros S ty ce code _ _ Hh G. injection G as <-. exists []. split; [apply ends_nil|]. split; [intros x []|exact Hh]. Qed.
  Lemma well_outs ty n : well value opset ty n -> Forall (output_ok ty) (cn_outs n).
  Proof. intros W. destruct W; try assumption. cbn [cn_outs]. match goal with H : noutputs _ = _ |- _ => rewrite H end. constructor; [assumption|constructor]. Qed.
  Lemma nodes_cons e n ns vs e' : Pstep e n vs -> length vs = length (cn_outs n) -> Pnodes (bind_all e (map aname (cn_outs n)) vs) ns e' -> Pnodes e (n :: ns) e'.
  Proof.
    intros Ps L Pn S ty ce code Sn Wl Hh G. apply Forall_cons_iff in Wl as [W Wl]. cbn [gen_cnodes] in G.
    destruct (gen_cnode value opset n) as [a|] eqn:Ga; [|discriminate G]. cbn [obind] in G. destruct (gen_cnodes value opset ns) as [b|] eqn:Gb; [|discriminate G]. injection G as <-.
    destruct (Ps S ty ce a) as (rs & E1 & A1); try assumption. { intros x Hx. apply Sn. cbn. apply in_or_app. left. exact Hx. }
    destruct (Pn S ty (rev (combine (map aname (cn_outs n)) (map V rs)) ++ ce) b) as (l & E2 & N2 & H2); try assumption.
    - intros x Hx. apply Sn. cbn. apply in_or_app. right. exact Hx.
    - apply held_declared; [eapply well_outs; exact W|exact A1|exact Hh].
    - exists (l ++ rev (combine (map aname (cn_outs n)) (map V rs))). rewrite <- app_assoc. split; [eapply ends_app; eassumption|]. split; [|exact H2].
      intros x Hx. rewrite map_app, in_app_iff in Hx. cbn. apply in_or_app. destruct Hx as [Hx|Hx]; [right; apply N2, Hx|left].
      rewrite map_rev, <- in_rev, fst_combine in Hx; [exact Hx|]. rewrite !map_length. symmetry. eapply all_stand_length. exact A1.
  Qed.
  Lemma graph_ok e ins ns outs e' vs : Pnodes e ns e' -> mapo (fun o => e' (aname o)) outs = Some vs -> Pgraph e (mkCG ins ns outs) vs.
  Proof.
    intros Pn M ty ce code Wn Wo Hh G. rewrite gen_graph_nodes in G. cbn [cg_nodes cg_outs] in *.
    destruct (Pn (fun x => In x (mentions (mkCG ins ns outs)) /\ x <> "") ty ce code) as (l & E1 & N1 & H1); try assumption.
    { intros x Hx Nx. split; [|exact Nx]. unfold mentions. apply in_or_app. left. exact Hx. }
    exists l. split; [exact E1|]. split; [exact N1|].
    assert (K : forall o, In o outs -> In (aname o) (mentions (mkCG ins ns outs)) /\ aname o <> "").
    { intros o Ho. split; [unfold mentions; apply in_or_app; right; apply in_map, Ho|apply (proj1 (Forall_forall _ _) Wo o Ho)]. }
    assert (Q : forall os ts, (forall o, In o os -> In o outs) -> mapo (fun o => e' (aname o)) os = Some ts -> Forall2 (held_arg (l ++ ce)) os ts).
    { induction os as [|o os IH]; intros ts Hin Mo; cbn in Mo; [injection Mo as <-; constructor|].
      destruct (e' (aname o)) as [t|] eqn:Et; [|discriminate Mo]. destruct (mapo _ os) as [us|] eqn:Eu; [|discriminate Mo]. injection Mo as <-.
      constructor; [|apply IH; [intros; apply Hin; right; assumption|reflexivity]]. unfold held_arg.
      assert (Ho : In o outs) by (apply Hin; left; reflexivity). destruct (proj1 (Forall_forall _ _) Wo o Ho) as [_ To]. rewrite To. apply H1; [apply K, Ho|exact Et]. }
    apply Q; [auto|exact M].
  Qed.

  (** *** Nodes without subgraphs *)
  Lemma leaf_ok e n ins outs : reads constant e (ninputs n) ins -> step n ins outs -> Pstep e (CLeaf n) outs.
  Proof.
    intros R [St Cv] S ty ce code Sn W Hh G L. cbn [gen_cnode cn_outs cn_ins] in *. unfold gen_leaf in G.
    inversion W as [? ? Nt Hi Ho Hn Inf| | | |]; subst.
    - destruct (String.eqb_spec (ntype n) "Constant") as [K|_]; [contradiction|].
      assert (Gv : Forall2 (given value (vars ce)) (ninputs n) ins).
      { eapply reads_given; [exact R|exact Hi|exact Hh|]. intros a Ha Hr. apply Sn; [apply in_map, Ha|]. apply (proj1 (Forall_forall _ _) Hn a Ha Hr). }
      destruct (any_all value opset n (vars ce) ins outs Gv Cv St L Inf) as (s & rs & Gs & Es & Vs). rewrite Gs in G. cbn in G. injection G as <-.
      exists rs. split; [|exact Vs]. apply ends_one. cbn [simple]. rewrite Es. cbn [obind]. apply declare_ok. rewrite !map_length. symmetry. eapply all_stand_length. exact Vs.
    - exfalso. eapply not_constant; eassumption.
  Qed.
  Lemma constant_ok e n i c : ntype n = "Constant" -> ninputs n = [i] -> constant i = Some c -> Pstep e (CLeaf n) [c].
  Proof.
    intros Nt Ni Ci S ty ce code Sn W Hh G L. cbn [gen_cnode cn_outs cn_ins] in *. unfold gen_leaf in G. rewrite Nt, String.eqb_refl, Ni in G.
    inversion W as [|? ? i' o Nt' Ni' No To Hc| | |]; subst; [contradiction|]. rewrite Ni in Ni'. injection Ni' as <-. rewrite No in G.
    destruct (Hc c Ci) as (Wc & Fc & Tc). unfold constant_of in Ci. destruct (value i) as [v|]; [|discriminate Ci]. cbn [obind] in G.
    unfold const_value in G. destruct (cv_ints v) as [l|]; [|discriminate Ci]. injection Ci as <-. cbn [fst snd] in *. cbn [obind] in G.
    assert (K : exists r, code = [SLet (aname o) (EValue r)] /\ stands_for (cv_dtype v) (aty o) r (mkT (cv_shape v) (map EI l))).
    { unfold constant_type in Tc. cbn [fst snd tshape] in Tc. destruct (aty o) as [d|d|k|t].
      - destruct Tc as [-> Ts]. rewrite Ts in *. unfold twf in Wc. cbn in Wc. destruct l as [|z [|? ?]]; cbn in Wc; try lia. cbn in G. injection G as <-.
        eexists. split; [reflexivity|]. split; [reflexivity|]. split; [exact Fc|]. auto.
      - destruct Tc as [-> Ts]. rewrite Ts in *. unfold twf in Wc. cbn in Wc. destruct l as [|z [|? ?]]; cbn in Wc; try lia. cbn in G. injection G as <-.
        eexists. split; [reflexivity|]. split; [reflexivity|]. split; [exact Fc|]. auto.
      - destruct Tc as [Td Ts]. unfold twf in Wc. rewrite Ts in *. cbn in Wc. rewrite map_length in Wc. destruct (N.of_nat (length l) =? k)%N eqn:Ek; [|discriminate G]. cbn in G. injection G as <-.
        eexists. split; [reflexivity|]. split; [unfold twf; cbn; rewrite map_length; lia|]. split; [exact Fc|]. split; [lia|]. left. split; [exact Td|]. reflexivity.
      - destruct Tc as (Td & Tr & Tz). destruct (cv_shape v) as [|s0 sr] eqn:Es; [cbn in Tr; lia|]. cbn in G. injection G as <-.
        eexists. split; [reflexivity|]. split; [exact Wc|]. split; [exact Fc|]. split; [reflexivity|]. split; [exact Td|]. split; [symmetry; exact Tr|exact Tz]. }
    destruct K as (r & -> & Sr). exists [r]. rewrite No. split; [|split; [exact Sr|exact I]]. apply ends_one. reflexivity.
  Qed.

  (** *** If *)
  Lemma gen_if c caps outs refs th el : gen_cnode value opset (Control_Spec.CIf (c :: caps) outs refs th el) =
    obind (gen_condition c) (fun cond => obind (gen_cgraph value opset th) (fun t => obind (gen_cgraph value opset el) (fun u =>
      Some [SIf (map aname outs) cond (gen_bindings refs caps [] (used_names th) ++ t) (map (fun o => EVar (aname o)) (cg_outs th))
                                      (gen_bindings refs caps [] (used_names el) ++ u) (map (fun o => EVar (aname o)) (cg_outs el))]))).
  Proof. reflexivity. Qed.
  Lemma if_ok e c caps outs refs th el v vs b rs : reads constant e (c :: caps) (v :: vs) -> length refs = length caps -> truth v = Some b ->
    Pgraph (inside refs vs [] []) (if b then th else el) rs -> Pstep e (Control_Spec.CIf (c :: caps) outs refs th el) rs.
  Proof.
    intros R Lr Tr Pg S ty ce code Sn W Hh G L. inversion W; subst. rewrite gen_if in G. unfold node_names in Sn. cbn [cn_outs cn_ins] in *.
    destruct (gen_condition c) as [cond|] eqn:Gc; [|discriminate G]. cbn [obind] in G.
    destruct (gen_cgraph value opset th) as [t|] eqn:Gt; [|discriminate G]. cbn [obind] in G. destruct (gen_cgraph value opset el) as [u|] eqn:Gu; [|discriminate G]. cbn [obind] in G. injection G as <-.
    assert (Hv : Forall2 (held_arg ce) (c :: caps) (v :: vs)).
    { apply (reads_held value S ty e ce); [exact R|constructor; assumption|exact Hh|]. intros a Ha. apply Sn; [apply in_map, Ha|].
      destruct Ha as [<-|Ha]; [match goal with H : variable value ty c |- _ => apply H end|]. match goal with H : Forall (variable value ty) caps |- _ => apply (proj1 (Forall_forall _ _) H a Ha) end. }
    inversion Hv as [|? ? ? ? Hc Hcaps]; subst.
    assert (Wb : well_graph value opset refs caps (if b then th else el)) by (destruct b; assumption).
    assert (Ib : cg_ins (if b then th else el) = []) by (destruct b; assumption).
    assert (Ob : Forall2 (fun o b => same_type (aty b) (aty o)) outs (cg_outs (if b then th else el))) by (destruct b; assumption).
    destruct (body_runs value opset refs caps (if b then th else el) vs [] rs ce (if b then t else u)) as (l & E1 & _ & _ & H1).
    { rewrite Ib. exact Pg. }
    { exact Wb. }
    { assumption. }
    { rewrite Ib. constructor. }
    { exact Hcaps. }
    { rewrite Ib. constructor. }
    { rewrite Ib. intros x []. }
    { destruct b; assumption. }
    rewrite Ib in E1. cbn [map] in E1.
    destruct (results_ok _ _ _ H1) as (rvs & M & A).
    assert (A' : all_stand outs rvs rs). { eapply all_stand_same; [|exact A]. clear - Ob. induction Ob; constructor; assumption. }
    exists rvs. split; [|exact A'].
    eapply ends_if with (b := b) (e1 := l ++ ce) (vs := map V rvs); [eapply condition_ok; eassumption| | | |apply ends_nil].
    - destruct b; exact E1.
    - destruct b; exact M.
    - rewrite leave_app0. apply declare_ok. rewrite !map_length. symmetry. eapply all_stand_length. exact A'.
  Qed.

  (** *** Loop *)
  Lemma well_loop_inv ty m c inits caps outs refs body : well value opset ty (CLoop (m :: c :: inits ++ caps) outs refs body) -> length refs = length caps ->
    exists fi fc fvs oc bouts,
      (is_optional m = true \/ (variable value ty m /\ aty m = ScalarNative I64)) /\ (is_optional c = true \/ (variable value ty c /\ condition_type (aty c))) /\
      Forall (variable value ty) inits /\ Forall (variable value ty) caps /\ bindable refs caps /\
      cg_ins body = fi :: fc :: fvs /\ cg_outs body = oc :: bouts /\ well_graph value opset refs caps body /\
      (aty fi = ScalarNative I64 /\ aty fc = ScalarNative BoolT /\ (aty oc = ScalarNative BoolT \/ aty oc = ScalarTensor BoolT)) /\
      NoDup (names (cg_ins body)) /\
      (forall x, In x (names (cg_ins body)) -> ~ In x (names (m :: c :: inits ++ caps)) /\ ~ In x (defines body)) /\
      Forall2 (fun f i => same_type (aty i) (aty f)) fvs inits /\ Forall2 (fun f b => same_type (aty b) (aty f)) fvs bouts /\
      Forall2 (fun f o => same_type (aty f) (aty o)) fvs outs /\
      assignable (names fvs) (names bouts) /\ ~ In (aname oc) (names fvs) /\ (is_optional c = true -> aname oc = aname fc).
  Proof.
    intros W Lr. inversion W as [| | |? ? ? inits' caps' ? ? ? fi fc fvs oc bouts A1 A2 A3 A4 A5 A6 A7 A8 A9 B1 B2 B3 B4 B5 B6 B7 B8 B9 C1 C2 C3 Et Ei|]; subst.
    match goal with H : inits' ++ caps' = inits ++ caps |- _ => rename H into E end.
    destruct (app_inj_len inits' inits caps' caps) as [-> ->]; [apply (f_equal (@length arg)) in E; rewrite !app_length in E; lia|exact E|].
    exists fi, fc, fvs, oc, bouts. repeat (split; [assumption|]). split; [auto|]. repeat (split; [assumption|]). assumption.
  Qed.
  Lemma loop_ok e m c inits caps outs refs body M C vs ws finals rows scans : trips constant e m M -> begins constant e c C ->
    reads constant e inits vs -> reads constant e caps ws -> length refs = length caps -> length (cg_ins body) = (2 + length inits)%nat ->
    Ploop refs ws body M (match C with Some _ => true | None => false end) 0 (match C with Some b => b | None => true end) vs finals rows ->
    mapo (fun k => match column rows k with Some col => stacked_values 0 col | None => None end) (seq 0 (length (cg_outs body) - 1 - length inits)) = Some scans ->
    Pstep e (CLoop (m :: c :: inits ++ caps) outs refs body) (finals ++ scans).
  Proof.
    intros Tm Tc Ri Rc Lr Lb Pl Ms S ty ce code Sn W Hh G L.
    destruct (well_loop_inv _ _ _ _ _ _ _ _ W Lr) as (fi & fc & fvs & oc & bouts & Vm & Vc & Vi & Vcaps & B & Ei & Eo & Wb & (Ti & Tf & To) & Nd & Df & Si & Sb & So & As & No & Hopt).
    change (gen_cnode value opset (CLoop (m :: c :: inits ++ caps) outs refs body)) with (obind (gen_cgraph value opset body) (gen_loop (m :: c :: inits ++ caps) outs refs body)) in G.
    destruct (gen_cgraph value opset body) as [bc|] eqn:Gb; [|discriminate G]. cbn [obind] in G. unfold gen_loop in G. rewrite Ei, Eo in G. cbv zeta in G.
    pose proof (F2_length _ _ _ Si) as L1. pose proof (F2_length _ _ _ Sb) as L2. pose proof (F2_length _ _ _ So) as L3.
    replace (length (inits ++ caps) - length refs)%nat with (length inits) in G by (rewrite app_length; lia).
    rewrite firstn_app, skipn_app, skipn_all, Nat.sub_diag, firstn_all in G. cbn [app skipn firstn] in G. rewrite app_nil_r in G.
    replace (length outs - length inits)%nat with 0%nat in G by lia. cbn [seq map combine] in G.
    rewrite (firstn_all2 bouts), (firstn_all2 fvs), (skipn_all2 bouts) in G by lia. cbn [length Nat.eqb forallb map app] in G.
    rewrite Eo in Ms. cbn [length] in Ms. replace (Datatypes.S (length bouts) - 1 - length inits)%nat with 0%nat in Ms by lia. cbn in Ms. injection Ms as <-. rewrite app_nil_r in *.
    unfold node_names in Sn. cbn [cn_ins cn_outs] in *.
    assert (Sin : forall a, In a (m :: c :: inits ++ caps) -> aname a <> "" -> S (aname a)) by (intros a Ha; apply Sn, in_map, Ha).
    assert (Hin : Forall2 (held_arg ce) inits vs).
    { apply (reads_held value S ty e ce); [exact Ri|exact Vi|exact Hh|]. intros a Ha. apply Sin; [right; right; apply in_or_app; left; exact Ha|apply (proj1 (Forall_forall _ _) Vi a Ha)]. }
    assert (Hcap : Forall2 (held_arg ce) caps ws).
    { apply (reads_held value S ty e ce); [exact Rc|exact Vcaps|exact Hh|]. intros a Ha. apply Sin; [right; right; apply in_or_app; right; exact Ha|apply (proj1 (Forall_forall _ _) Vcaps a Ha)]. }
    assert (Fin : forall x, In x (names fvs) -> In x (names (cg_ins body))) by (rewrite Ei; intros x Hx; right; right; exact Hx).
    assert (NdF : NoDup (names fvs) /\ aname fi <> aname fc /\ ~ In (aname fi) (names fvs) /\ ~ In (aname fc) (names fvs)).
    { rewrite Ei in Nd. cbn [names map] in Nd. apply NoDup_cons_iff in Nd as [N1 N2]. apply NoDup_cons_iff in N2 as [N2 N3]. split; [exact N3|]. split; [|split; [|exact N2]].
      - intros K. apply N1. left. symmetry. exact K.
      - intros K. apply N1. right. exact K. }
    destruct NdF as (NdF & Nic & Nif & Ncf).
    destruct (inits_ok fvs inits vs ce Hin Si NdF) as (l0 & I1 & I2 & I3).
    { intros x Hx K. apply (proj1 (Df x (Fin x Hx))). right. right. unfold names in *. rewrite map_app, in_app_iff. left. exact K. }
    set (c0 := match C with Some b => b | None => true end) in *.
    set (F := (aname fc, V (RNative (EB c0))) :: (aname fi, V (RNative (EI 0))) :: l0).
    assert (FN : forall x, In x (map fst F) -> In x (names (cg_ins body))).
    { intros x [<-|[<-|Hx]]; rewrite Ei; cbn; auto. }
    assert (Past : forall a, In a (m :: c :: inits ++ caps) -> forall F', map fst F' = map fst F -> look (F' ++ ce) (aname a) = look ce (aname a)).
    { intros a Ha F' EF. apply look_past. rewrite EF. intros K. apply (proj1 (Df _ (FN _ K))). apply names_in, Ha. }
    (* the trip count *)
    assert (Mx : exists max, (if is_optional m then Some (EInt 9223372036854775807) else match aty m with ScalarNative _ => Some (EVar (aname m)) | ScalarTensor _ | TensorT _ => Some (EScalar (aname m)) | ShapeT _ => None end) = Some max /\
             forall F', map fst F' = map fst F -> eval (F' ++ ce) max = Some (V (RNative (EI (match M with Some z => z | None => 9223372036854775807 end))))).
    { destruct Tm as [Om|z Om Rm]; rewrite Om.
      - exists (EInt 9223372036854775807). split; reflexivity.
      - destruct Vm as [K|[Vm Tym]]; [congruence|]. rewrite Tym. exists (EVar (aname m)). split; [reflexivity|]. intros F' EF. cbn [eval]. rewrite (Past m (or_introl eq_refl) F' EF).
        assert (K : Forall2 (held_arg ce) [m] [int_value z]).
        { apply (reads_held value S ty e ce); [exact Rm|constructor; [exact Vm|constructor]|exact Hh|]. intros a [<-|[]]. apply Sin; [left; reflexivity|apply Vm]. }
        inversion K as [|? ? ? ? K1 _]; subst. unfold held_arg in K1. rewrite Tym in K1. apply held_int in K1. apply K1. }
    destruct Mx as (max & Gm & Em). rewrite Gm in G. cbn [obind] in G.
    (* the condition *)
    assert (Cn : exists cond, (if is_optional c then Some ETrue else gen_condition c) = Some cond /\ eval (((aname fi, V (RNative (EI 0))) :: l0) ++ ce) cond = Some (V (RNative (EB c0))) /\
                 ((match C with Some _ => true | None => false end) = false -> aname oc = aname fc /\ c0 = true)).
    { unfold c0. destruct Tc as [Oc|v b Oc Rv Shv Trv]; rewrite Oc.
      - exists ETrue. split; [reflexivity|]. split; [reflexivity|]. auto.
      - destruct Vc as [K|[Vc Tyc]]; [congruence|].
        assert (K : Forall2 (held_arg ce) [c] [v]).
        { apply (reads_held value S ty e ce); [exact Rv|constructor; [exact Vc|constructor]|exact Hh|]. intros a [<-|[]]. apply Sin; [right; left; reflexivity|apply Vc]. }
        inversion K as [|? ? ? ? K1 _]; subst.
        destruct (gen_condition c) as [cond|] eqn:Gc; [|unfold gen_condition in Gc; destruct (aty c); first [discriminate Gc|contradiction]]. exists cond. split; [reflexivity|]. split; [|discriminate].
        eapply condition_ok; [|exact Tyc|exact Trv|exact Gc]. apply held_past; [|exact K1].
        intros Q. assert (Q' : In (aname c) (map fst F)) by (right; exact Q). apply (proj1 (Df _ (FN _ Q'))). right. left. reflexivity. }
    destruct Cn as (cond & Gc & Ec & Hg). rewrite Gc in G. cbn [obind] in G.
    match type of G with (if ?b then _ else _) = _ => assert (Gd : b = true) by lia; rewrite Gd in G; clear Gd end. injection G as <-.
    destruct (Pl caps fi fc fvs oc bouts max bc ce F) as (F' & P1 & P2 & P3); try assumption.
    { intros x Hx. destruct (Df x Hx) as [D1 D2]. split; [|exact D2]. intros K. apply D1. right. right. unfold names in *. rewrite map_app, in_app_iff. right. exact K. }
    { rewrite Ei. constructor; [|constructor].
      - unfold held_arg. rewrite Ti. apply held_int. unfold F. cbn [look]. destruct (String.eqb_spec (aname fi) (aname fc)); [contradiction|]. rewrite String.eqb_refl. split; [reflexivity|lia].
      - unfold held_arg. rewrite Tf. apply held_bool. unfold F. cbn [look]. rewrite String.eqb_refl. reflexivity.
      - eapply F2_impl; [|exact I3]. intros a t Ha K. apply (held_past [(aname fc, V (RNative (EB c0))); (aname fi, V (RNative (EI 0)))]); [|exact K].
        intros [Q|[Q|[]]]; [apply Ncf|apply Nif]; cbn in Q; rewrite Q; apply names_in, Ha. }
    assert (P3' : Forall2 (held_arg (F' ++ ce)) fvs finals) by (eapply F2_impl; [|exact P3]; intros a t _ K; apply held_frame, K).
    destruct (results_ok _ _ _ P3') as (rvs & Mr & A). pose proof (all_stand_same _ _ _ _ So A) as A'.
    exists rvs. split; [|exact A'].
    eapply ends_block with (e1 := F' ++ ce) (vs := map V rvs); [|exact Mr| |apply ends_nil].
    - eapply ends_app; [exact I1|]. eapply ends_simple; [reflexivity|]. eapply ends_simple; [cbn [simple]; cbn [app] in Ec; rewrite Ec; reflexivity|].
      unfold loop_code in P1. rewrite Ei in P1. exact P1.
    - rewrite leave_app0. apply declare_ok. rewrite !map_length. symmetry. eapply all_stand_length. exact A'.
  Qed.

  (** *** Scan *)
  Lemma well_scan_inv ty inits seqs caps outs refs cfg body : well value opset ty (CScan (inits ++ seqs ++ caps) outs refs cfg body) -> length refs = length caps -> length seqs = sc_count cfg ->
    exists states elements stouts scouts,
      Forall (variable value ty) inits /\ Forall (variable value ty) seqs /\ Forall (variable value ty) caps /\ bindable refs caps /\
      Forall (fun s => exists t, aty s = TensorT t /\ (2 <= tt_rank t)%N) seqs /\
      Forall (fun a => 0 <= a <= 9223372036854775807)%Z (sc_in_axes cfg) /\ Forall (fun a => 0 <= a <= 9223372036854775807)%Z (sc_out_axes cfg) /\
      cg_ins body = states ++ elements /\ cg_outs body = stouts ++ scouts /\ well_graph value opset refs caps body /\ NoDup (names (cg_ins body)) /\
      (forall x, In x (names (cg_ins body)) -> ~ In x (names (inits ++ seqs ++ caps)) /\ ~ In x (defines body)) /\
      (forall x, In x (names (inits ++ seqs ++ caps) ++ names (cg_ins body) ++ mentions body ++ defines body ++ refs) -> ~ scan_name x) /\
      Forall2 (fun f i => same_type (aty i) (aty f)) states inits /\ Forall2 (fun f b => same_type (aty b) (aty f)) states stouts /\
      Forall2 (fun f s => exists t u, aty s = TensorT t /\ aty f = TensorT u /\ tt_dtype u = tt_dtype t /\ (tt_rank u + 1 = tt_rank t)%N) elements seqs /\
      Forall (fun o => exists t, aty o = TensorT t) scouts /\
      Forall2 (fun b o => same_type (aty b) (aty o)) stouts (firstn (length stouts) outs) /\
      Forall2 (fun b o => exists t u, aty b = TensorT t /\ aty o = TensorT u /\ tt_dtype u = tt_dtype t /\ (tt_rank u = tt_rank t + 1)%N) scouts (skipn (length stouts) outs) /\
      assignable (names states) (names stouts) /\ (forall x, In x (names states) -> ~ In x (names scouts)).
  Proof.
    intros W Lr Lq. inversion W as [| | | |? inits' seqs' caps' ? ? ? ? states elements stouts scouts A1 A2 A3 A4 A5 A6 A7 A8 A9 B1 B2 B3 B4 B5 B6 B7 B8 B9 C1 C2 C3 C4 C5 C6 C7]; subst.
    match goal with H : inits' ++ seqs' ++ caps' = inits ++ seqs ++ caps |- _ => rename H into E end.
    destruct (app_inj_len inits' inits (seqs' ++ caps') (seqs ++ caps)) as [-> E2]; [apply (f_equal (@length arg)) in E; rewrite !app_length in E; lia|exact E|].
    destruct (app_inj_len seqs' seqs caps' caps) as [-> ->]; [lia|exact E2|].
    exists states, elements, stouts, scouts. repeat (split; [assumption|]). assumption.
  Qed.
  Lemma slices_eq cfg : forall seqs elements s, Forall (fun s => exists t, aty s = TensorT t /\ (2 <= tt_rank t)%N) seqs ->
    mapo (fun kse : nat * (arg * arg) => let '(k, (s, e)) := kse in
       match aty s with
       | TensorT t => Some (SLet (aname e) (EElement (aname s) (usize (nth k (sc_in_axes cfg) 0%Z)) (Z.eqb (nth k (sc_in_dirs cfg) 0%Z) 1) (tt_rank t - 1)))
       | _ => None
       end) (combine (seq s (length seqs)) (combine seqs elements)) = Some (map (slice cfg) (combine (seq s (length seqs)) (combine seqs elements))).
  Proof.
    induction seqs as [|q seqs IH]; intros elements s H; [reflexivity|]. apply Forall_cons_iff in H as [(t & Et & _) H]. destruct elements as [|f elements]; [reflexivity|].
    cbn [length seq combine mapo map]. rewrite (IH elements (Datatypes.S s) H). unfold slice, slice_rank. rewrite Et. reflexivity.
  Qed.
  Lemma news_ok : forall n s ce, exists l, ends (map (fun k => SLet (coll k) ENew) (seq s n)) ce (l ++ ce) /\ (forall x, In x (map fst l) -> exists j, (s <= j)%nat /\ x = coll j) /\
    (forall k, (s <= k < s + n)%nat -> look l (coll k) = Some (VVec [])).
  Proof.
    induction n as [|n IH]; intros s ce; [exists []; split; [apply ends_nil|]; split; [intros x []|intros; lia]|].
    destruct (IH (Datatypes.S s) ((coll s, VVec []) :: ce)) as (l & R1 & R2 & R3). exists (l ++ [(coll s, VVec [])]). rewrite <- app_assoc. split; [|split].
    - cbn [seq map]. eapply ends_simple; [cbn [simple eval option_map]; reflexivity|exact R1].
    - intros x Hx. rewrite map_app, in_app_iff in Hx. destruct Hx as [Hx|[<-|[]]]; [|exists s; split; [lia|reflexivity]]. destruct (R2 x Hx) as (j & Hj & E). exists j. split; [lia|exact E].
    - intros k Hk. destruct (Nat.eq_dec k s) as [->|Hne].
      + rewrite look_past; [cbn; rewrite String.eqb_refl; reflexivity|]. intros K. destruct (R2 _ K) as (j & Hj & E). apply coll_inj in E. lia.
      + apply look_frame, R3. lia.
  Qed.
  Lemma results_at e : forall os ts s, length ts = length os -> (forall k o v, nth_error os k = Some o -> nth_error ts k = Some v -> held e (outv (s + k)) (aty o) v) ->
    exists rs, mapo (eval e) (map (fun k => EVar (outv k)) (seq s (length os))) = Some (map V rs) /\ all_stand os rs ts.
  Proof.
    induction os as [|o os IH]; intros [|t ts] s L H; try discriminate L; [exists []; split; [reflexivity|exact I]|].
    destruct (H 0%nat o t eq_refl eq_refl) as (r & E & Sr). rewrite Nat.add_0_r in E.
    destruct (IH ts (Datatypes.S s)) as (rs & M & A); [cbn in L; lia| |].
    { intros k o' v' E1 E2. replace (Datatypes.S s + k)%nat with (s + Datatypes.S k)%nat by lia. apply (H (Datatypes.S k)); assumption. }
    exists (r :: rs). cbn [length seq map mapo eval]. rewrite E, M. split; [reflexivity|]. split; assumption.
  Qed.
  Lemma updates_false : forall fs os, map (fun so : arg * arg => SSet (aname (fst so)) (EVar (aname (snd so)))) (combine fs os) = updates false fs os.
  Proof. intros fs os. unfold updates. induction (combine fs os) as [|p l IH]; [reflexivity|]. cbn in *. rewrite IH. reflexivity. Qed.
  Lemma scan_ok e inits seqs caps outs refs cfg body vs xs ws L finals rows scans :
    reads constant e inits vs -> reads constant e seqs xs -> reads constant e caps ws -> length refs = length caps ->
    length seqs = sc_count cfg -> seqs <> [] -> length (cg_ins body) = (length inits + length seqs)%nat ->
    (forall k x, nth_error xs k = Some x -> let a := position (length (tshape (snd x))) (nth k (sc_in_axes cfg) 0%Z) in
         axis_ok (length (tshape (snd x))) (nth k (sc_in_axes cfg) 0%Z) = true /\ nth a (tshape (snd x)) 0%N = L) ->
    Pscan refs ws body cfg xs L 0 vs finals rows ->
    mapo (fun k => match column rows k with Some col => stack_of cfg k col | None => None end) (seq 0 (length (cg_outs body) - length inits)) = Some scans ->
    Pstep e (CScan (inits ++ seqs ++ caps) outs refs cfg body) (finals ++ scans).
  Proof.
    intros Ri Rs Rc Lr Lq Nq Lb Ax Pl Ms S ty ce code Sn W Hh G Lo.
    destruct (well_scan_inv _ _ _ _ _ _ _ _ W Lr Lq) as (states & elements & stouts & scouts & Vi & Vs & Vc & B & Rk & Ai & Ao & Ei & Eo & Wb & Nd & Df & Sc & Si & Ss & Se & Tsc & So1 & So2 & As & Nss).
    change (gen_cnode value opset (CScan (inits ++ seqs ++ caps) outs refs cfg body)) with (obind (gen_cgraph value opset body) (gen_scan (inits ++ seqs ++ caps) outs refs cfg body)) in G.
    destruct (gen_cgraph value opset body) as [bc|] eqn:Gb; [|discriminate G]. cbn [obind] in G. unfold gen_scan in G. cbv zeta in G.
    pose proof (F2_length _ _ _ Si) as L1. pose proof (F2_length _ _ _ Ss) as L2. pose proof (F2_length _ _ _ Se) as L3. pose proof (F2_length _ _ _ So1) as L4. pose proof (F2_length _ _ _ So2) as L5.
    rewrite firstn_length in L4. rewrite skipn_length in L5.
    replace (length (inits ++ seqs ++ caps) - length refs)%nat with (length inits + length seqs)%nat in G by (rewrite !app_length; lia).
    rewrite <- Lq in G. replace (length inits + length seqs - length seqs)%nat with (length inits) in G by lia.
    replace (skipn (length inits + length seqs) (inits ++ seqs ++ caps)) with caps in G by (rewrite app_assoc, skipn_app, skipn_all2 by (rewrite app_length; lia); rewrite app_length, Nat.sub_diag; reflexivity).
    replace (skipn (length inits) (inits ++ seqs ++ caps)) with (seqs ++ caps) in G by (rewrite skipn_app, skipn_all, Nat.sub_diag; reflexivity).
    replace (firstn (length seqs) (seqs ++ caps)) with seqs in G by (rewrite firstn_app, Nat.sub_diag, firstn_all; cbn; rewrite app_nil_r; reflexivity).
    replace (firstn (length inits) (inits ++ seqs ++ caps)) with inits in G by (rewrite firstn_app, Nat.sub_diag, firstn_all; cbn; rewrite app_nil_r; reflexivity).
    replace (firstn (length inits) (cg_ins body)) with states in G by (rewrite Ei, firstn_app, <- L1, Nat.sub_diag, firstn_all; cbn; rewrite app_nil_r; reflexivity).
    replace (skipn (length inits) (cg_ins body)) with elements in G by (rewrite Ei, skipn_app, <- L1, skipn_all, Nat.sub_diag; reflexivity).
    replace (firstn (length inits) (cg_outs body)) with stouts in G by (rewrite Eo, firstn_app, <- L1, L2, Nat.sub_diag, firstn_all; cbn; rewrite app_nil_r; reflexivity).
    replace (skipn (length inits) (cg_outs body)) with scouts in G by (rewrite Eo, skipn_app, <- L1, L2, skipn_all, Nat.sub_diag; reflexivity).
    assert (Ln : (length (cg_outs body) - length inits)%nat = length scouts) by (rewrite Eo, app_length; lia). rewrite Ln in G, Ms.
    rewrite slices_eq in G by exact Rk. cbn [obind] in G.
    destruct seqs as [|first seqs0] eqn:Esq; [contradiction|]. rewrite <- Esq in *.
    match type of G with (if ?b then _ else _) = _ => destruct b; [|discriminate G] end. injection G as <-.
    unfold node_names in Sn. cbn [cn_ins cn_outs] in *.
    assert (Sin : forall a, In a (inits ++ seqs ++ caps) -> aname a <> "" -> S (aname a)) by (intros a Ha; apply Sn, in_map, Ha).
    assert (Rd : forall l ts, (forall a, In a l -> In a (inits ++ seqs ++ caps)) -> Forall (variable value ty) l -> reads constant e l ts -> Forall2 (held_arg ce) l ts).
    { intros l ts Hin V R. apply (reads_held value S ty e ce); [exact R|exact V|exact Hh|]. intros a Ha. apply Sin; [apply Hin, Ha|]. apply (proj1 (Forall_forall _ _) V a Ha). }
    pose proof (Rd inits vs ltac:(intros; apply in_or_app; left; assumption) Vi Ri) as Hi.
    pose proof (Rd seqs xs ltac:(intros; apply in_or_app; right; apply in_or_app; left; assumption) Vs Rs) as Hs.
    pose proof (Rd caps ws ltac:(intros; apply in_or_app; right; apply in_or_app; right; assumption) Vc Rc) as Hc. clear Rd.
    assert (Nds : NoDup (names states)). { rewrite Ei in Nd. unfold names in *. rewrite map_app in Nd. apply (NoDup_app_parts _ _ Nd). }
    assert (Sti : forall x, In x (names states) -> In x (names (cg_ins body))). { intros x Hx. rewrite Ei. unfold names in *. rewrite map_app, in_app_iff. left. exact Hx. }
    assert (Stn : forall x, In x (names states) -> ~ scan_name x). { intros x Hx. apply Sc. rewrite !in_app_iff. right. left. apply Sti, Hx. }
    assert (Sqn : forall a, In a seqs -> ~ scan_name (aname a) /\ ~ In (aname a) (names states)).
    { intros a Ha. assert (Q : In (aname a) (names (inits ++ seqs ++ caps))) by (apply names_in, in_or_app; right; apply in_or_app; left; exact Ha). split; [apply Sc, in_or_app; left; exact Q|].
      intros K. apply (proj1 (Df _ (Sti _ K)) Q). }
    destruct (inits_ok states inits vs ce Hi Si Nds) as (l0 & I1 & I2 & I3).
    { intros x Hx K. apply (proj1 (Df x (Sti x Hx))). unfold names in *. rewrite map_app, in_app_iff. left. exact K. }
    destruct (news_ok (length scouts) 0 (l0 ++ ce)) as (lc & C1 & C2 & C3).
    set (F := ("seq_len", VUsize L) :: lc ++ l0).
    assert (Lx : forall x, ~ scan_name x -> look F x = look l0 x).
    { intros x Hx. unfold F. cbn [look]. destruct (String.eqb_spec x "seq_len") as [->|]; [elim Hx; right; left; reflexivity|]. apply look_past. intros K. destruct (C2 _ K) as (j & _ & ->). apply Hx, coll_scan. }
    assert (Dim : eval (lc ++ l0 ++ ce) (EDim (aname first) (usize (nth 0 (sc_in_axes cfg) 0%Z))) = Some (VUsize L)).
    { assert (Hf : In first seqs) by (rewrite Esq; left; reflexivity). rewrite Esq in Hs. inversion Hs as [|? x ? xs0 H1 _]; subst xs. clear Hs.
      destruct (Ax 0%nat x eq_refl) as [Ao0 AL]. destruct (axis_small _ _ (axis_nth _ 0 Ai) Ao0) as (Ua & Pa & _).
      destruct H1 as (r & Er & Sr). destruct (proj1 (Forall_forall _ _) Rk first Hf) as (t & Et & _). rewrite Et in Sr. destruct r as [x'|z0|l9]; try (destruct Sr as (_ & _ & []); fail).
      destruct Sr as (_ & _ & -> & _). cbn [eval]. unfold tens, vars. rewrite app_assoc, look_past.
      - rewrite Er. cbn [obind]. rewrite Ua, Nat2N.id. rewrite (nth_error_nth' _ 0%N) by exact Pa. rewrite AL. reflexivity.
      - rewrite map_app, in_app_iff. intros [K|K]; [destruct (C2 _ K) as (j & _ & E); apply (proj1 (Sqn first Hf)); rewrite E; apply coll_scan|]. apply (proj2 (Sqn first Hf)), I2, K. }
    destruct (Pl caps seqs states elements stouts scouts bc ce F) as (F' & P1 & P2 & P3 & P4); try assumption.
    { intros x Hx. destruct (Df x Hx) as [D1 D2]. split; [|exact D2]. intros K. apply D1. unfold names in *. rewrite map_app, in_app_iff. right. exact K. }
    { intros x Hx. apply Sc. unfold names in *. rewrite !map_app, !in_app_iff in *. tauto. }
    { split; assumption. }
    { intros x [<-|Hx]; [right; right; left; reflexivity|]. rewrite map_app, in_app_iff in Hx. destruct Hx as [Hx|Hx]; [right; destruct (C2 _ Hx) as (j & _ & ->); apply coll_scan|left; apply I2, Hx]. }
    { reflexivity. }
    { intros k Hk. exists []. unfold F. cbn [look]. destruct (String.eqb_spec (coll k) "seq_len") as [E|]; [discriminate E|]. apply look_frame, C3. lia. }
    { eapply F2_impl; [|exact I3]. intros a t Ha (r & E & Sr). exists r. split; [|exact Sr]. rewrite Lx; [exact E|]. apply Stn, names_in, Ha. }
    assert (LS : length scans = length scouts) by (apply Tensor_Proofs.mapo_length in Ms; rewrite seq_length in Ms; exact Ms).
    destruct (stacks_ok cfg ce Ao scouts scans 0 [] F' LS) as (lp & F2 & Q1 & Q2 & Q3 & Q4 & Q5).
    { intros k o Ho. destruct (proj1 (Forall_forall _ _) Tsc o (nth_error_In _ _ Ho)) as (T & ET).
      assert (Hk : (k < length scouts)%nat) by (apply nth_error_Some; congruence).
      destruct (P4 k o [] Ho) as (new & col & N1 & N2 & N3).
      { unfold F. cbn [look]. destruct (String.eqb_spec (coll k) "seq_len") as [E|]; [discriminate E|]. apply look_frame, C3. lia. }
      exists new, col, T. split; [exact ET|]. split; [exact N1|]. split; [exact N3|]. cbn [Nat.add].
      pose proof (Tensor_Proofs.mapo_nth _ _ _ k k Ms) as Mk. rewrite Mk, N2; [reflexivity|].
      rewrite (nth_error_nth' _ 0%nat) by (rewrite seq_length; exact Hk). rewrite seq_nth by exact Hk. reflexivity. }
    { intros x []. }
    cbn [app] in Q1.
    assert (Hst : Forall2 (held_arg (lp ++ F2 ++ ce)) states finals).
    { eapply F2_impl; [|exact P3]. intros a t Ha (r & E & Sr). exists r. split; [|exact Sr]. pose proof (Stn _ (names_in _ _ Ha)) as Sa. rewrite look_past.
      - apply look_frame. rewrite Q4; [exact E|]. intros k Ek. apply Sa. rewrite Ek. apply coll_scan.
      - intros K. destruct (Q3 _ K) as (j & _ & Ej). apply Sa. rewrite Ej. apply out_scan. }
    destruct (results_ok _ _ _ Hst) as (r1 & M1 & A1).
    destruct (results_at (lp ++ F2 ++ ce) (skipn (length stouts) outs) scans 0) as (r2 & M2 & A2).
    { rewrite skipn_length. lia. }
    { intros k o v Ho Hv. apply held_frame. assert (Hk : (k < length scouts)%nat). { rewrite <- LS. apply nth_error_Some. congruence. }
      apply nth_error_Some in Hk. destruct (nth_error scouts k) as [b|] eqn:Eb; [|congruence].
      destruct (F2_nth _ _ _ So2 k b o Eb Ho) as (t & u & T1 & T2 & T3 & T4). rewrite T2. eapply Q5; eassumption. }
    replace (length (skipn (length stouts) outs)) with (length scouts) in M2 by (rewrite skipn_length; exact L5).
    assert (A : all_stand outs (r1 ++ r2) (finals ++ scans)).
    { rewrite <- (firstn_skipn (length stouts) outs). apply all_stand_app; [|exact A2]. eapply all_stand_same; [exact So1|]. eapply all_stand_same; [|exact A1].
      clear - Ss. induction Ss; constructor; [apply same_type_sym; assumption|assumption]. }
    exists (r1 ++ r2). split; [|exact A].
    eapply ends_block with (e1 := lp ++ F2 ++ ce) (vs := map V (r1 ++ r2)); [| | |apply ends_nil].
    - eapply ends_app; [exact I1|]. eapply ends_app; [exact C1|]. cbn [app].
      eapply ends_simple; [cbn [simple]; rewrite Dim; reflexivity|].
      match goal with |- ends (?s :: ?r) ?a ?b => change (ends ([s] ++ r) a b) end. eapply ends_app; [|exact Q1].
      rewrite updates_false. unfold scan_body in P1. replace (("seq_len", VUsize L) :: lc ++ l0 ++ ce) with (F ++ ce) by (unfold F; cbn [app]; rewrite <- app_assoc; reflexivity). rewrite <- ?app_assoc in P1 |- *. exact P1.
    - rewrite Index_Proofs.mapo_app, M1, M2, map_app. reflexivity.
    - replace (leave ce (lp ++ F2 ++ ce)) with ce by (rewrite app_assoc, leave_app0; reflexivity). apply declare_ok. rewrite !map_length. symmetry. eapply all_stand_length. exact A.
  Qed.

  (** ** Everything *)
  Scheme rgraph_mut := Minimality for rgraph Sort Prop with rnodes_mut := Minimality for rnodes Sort Prop with rstep_mut := Minimality for rstep Sort Prop
    with rloop_mut := Minimality for rloop Sort Prop with rscan_mut := Minimality for rscan Sort Prop.
  Lemma nodes_ok e ns e' : rnodes constant step e ns e' -> Pnodes e ns e'.
  Proof.
    apply (rnodes_mut constant step Pgraph Pnodes Pstep (fun refs ws body M given i c vs finals rows => Ploop refs ws body M given i c vs finals rows) Pscan).
    - intros. eapply graph_ok; eassumption.
    - intros. apply nodes_nil.
    - intros. eapply nodes_cons; eassumption.
    - intros. eapply leaf_ok; eassumption.
    - intros. eapply constant_ok; eassumption.
    - intros. eapply if_ok; eassumption.
    - intros. eapply loop_ok; eassumption.
    - intros. eapply scan_ok; eassumption.
    - intros. apply loop_end. assumption.
    - intros. eapply loop_next; eassumption.
    - intros. apply scan_end.
    - intros. eapply scan_next; eassumption.
  Qed.
End Nodes.
