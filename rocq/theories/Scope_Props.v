(** C41: the generated forward function and Rust's ownership rules. *)
From Verif Require Import IR_Model Scope_Spec Scope_Model Scope_Cond Scope_Proofs Scope_If Scope_Loop Scope_Flow.
From Coq Require Import Lia.
Open Scope string_scope.
Open Scope list_scope.

(** For a graph without control flow, with any number of uses of any value, the
    generated function is accepted: no variable is used after it was moved.
    Missing: control flow, and the two conditions on the outputs (both refuted
    below).  That a node reads no argument more often than it lists it is a
    hypothesis on the nodes, part of [legal_flat]. *)
Theorem C41_accepted_partial : forall g, legal_flat g -> outputs_once g -> scalar_outputs_unread g -> accepted (codegen_forward g).
Proof. exact accepted_lemma. Qed.
Print Assumptions C41_accepted_partial.

(** And a value is cloned only where another use follows, if the nodes read
    what they list. *)
Theorem C41_clone_only_when_needed_partial : forall g, legal_flat g -> scalar_outputs_unread g -> reads_all g ->
  forall pre x post, codegen_forward g = pre ++ Use x Cloned :: post -> used x post.
Proof. exact clones_lemma. Qed.
Print Assumptions C41_clone_only_when_needed_partial.

(** ** A graph that meets the hypotheses *)
Definition tn (x : string) : arg := mkArg x (TensorT (mkTT F32 2 None)) VDynamic.
Definition sc (x : string) : arg := mkArg x (ScalarTensor F32) VDynamic.
Definition nat_ (x : string) : arg := mkArg x (ScalarNative F32) VDynamic.
Definition own (l : list string) : list access := map (fun x => Owned (tn x)) l.
Definition plain (ins outs : list string) : cnode := Plain (map tn ins) (map tn outs) (own ins).

(** [x] is used four times (twice by one node, once by another, and returned),
    [s] comes in and goes out as a number. *)
Definition ex_g : cgraph :=
  CGraph [tn "x"; sc "s"]
    [plain ["x"; "x"] ["a"]; Plain [tn "a"; sc "s"] [tn "b"; sc "r"] [Owned (sc "s"); Owned (tn "a")]; plain ["x"; "b"] ["c"]]
    [tn "c"; tn "x"; sc "r"].

Ltac in_cases := cbn in *; repeat match goal with
  | H : _ \/ _ |- _ => destruct H
  | H : False |- _ => destruct H
  | H : exists _, _ |- _ => destruct H
  | H : _ /\ _ |- _ => destruct H
  | H : In _ _ |- _ => progress cbn in H
  | _ => progress subst
  end.
Ltac counts := unfold times; match goal with |- context [count_occ string_dec ?l1 ?x] =>
    let l1' := eval vm_compute in l1 in change (count_occ string_dec l1 x) with (count_occ string_dec l1' x) end;
  match goal with |- _ ?r (count_occ string_dec ?l2 ?x) =>
    let l2' := eval vm_compute in l2 in change (count_occ string_dec l2 x) with (count_occ string_dec l2' x) end;
  cbn [count_occ]; repeat destruct (string_dec _ _); subst; try discriminate; try congruence; lia.
Example ex_legal : legal_flat ex_g.
Proof.
  split.
  - intros n H. in_cases; eexists _, _, _; reflexivity.
  - cbn. repeat constructor; cbn; intuition discriminate.
  - intros pre n post a E H.
    destruct pre as [|n0 [|n1 [|n2 [|? ?]]]]; cbn in E; try discriminate; injection E; intros; subst; in_cases; cbn; auto 10.
    all: try (destruct pre; discriminate).
  - intros n x [<-|[<-|[<-|[]]]]; counts.
  - intros n a b Hn Ha Hb E. in_cases; try discriminate; reflexivity.
  - intros a H. in_cases.
    + exists (tn "c"). repeat split. right. eexists. split; [right; right; left; reflexivity|]. cbn. auto.
    + exists (tn "x"). repeat split. left. cbn. auto.
    + exists (sc "r"). repeat split. right. eexists. split; [right; left; reflexivity|]. cbn. auto.
Qed.
Example ex_once : outputs_once ex_g.
Proof. unfold outputs_once. cbn. repeat constructor; cbn; intuition discriminate. Qed.
Example ex_unread : scalar_outputs_unread ex_g.
Proof. intros a n c Ha Hs Hn Hc. in_cases; try discriminate; cbn; discriminate. Qed.
Example ex_reads : reads_all ex_g.
Proof.
  intros n Hn. split.
  - intros a Ha. in_cases; discriminate.
  - intros x. destruct Hn as [<-|[<-|[<-|[]]]]; counts.
Qed.
Example ex_code : codegen_forward ex_g =
  [Let ["x"; "s"]; Use "s" Copied; Let ["s"];
   Use "x" Cloned; Use "x" Cloned; Let ["a"];
   Use "s" Moved; Use "a" Moved; Let ["b"; "r"];
   Use "x" Cloned; Use "b" Moved; Let ["c"];
   Use "r" Moved; Let ["r"];
   Use "c" Moved; Use "x" Moved; Use "r" Copied].
Proof. reflexivity. Qed.

(** ** Refutations *)
Definition accepts (g : cgraph) : bool := match exec (codegen_forward g) [empty] with Some _ => true | None => false end.
Ltac refute g := exists g; repeat split; try (vm_compute; reflexivity); intros H; apply H; vm_compute; reflexivity.

(** An output returned twice. *)
Theorem C41_duplicate_refuted : exists g, well_formed g = true /\ ~ accepted (codegen_forward g).
Proof. refute (CGraph [tn "x"] [plain ["x"] ["y"]] [tn "y"; tn "y"]). Qed.
Print Assumptions C41_duplicate_refuted.

(** A scalar that is returned and also read by a node: the conversion at the
    end was not counted as a use. *)
Theorem C41_boundary_refuted : exists g, well_formed g = true /\ outputs_once g /\ ~ accepted (codegen_forward g).
Proof.
  exists (CGraph [tn "x"] [Plain [tn "x"] [sc "s"] [Owned (tn "x")]; Plain [sc "s"] [tn "y"] [Owned (sc "s")]] [tn "y"; sc "s"]).
  split; [vm_compute; reflexivity|]. split.
  - unfold outputs_once. cbn. repeat constructor; cbn; intuition discriminate.
  - intros H; apply H; vm_compute; reflexivity.
Qed.
Print Assumptions C41_boundary_refuted.

(** A value captured by both branches of an If and used twice afterwards: the
    branches count as two uses, but only one was registered. *)
Definition branch (o : string) : cgraph := CGraph [] [plain ["x"] [o]] [tn o].
Definition if_g (uses : list string) : cgraph :=
  CGraph [tn "x"; nat_ "c"]
    (IfNode (nat_ "c") [tn "x"] [tn "y"] ["x"] (branch "t") (branch "e") :: map (fun o => plain ["x"] [o]) uses)
    (tn "y" :: map tn uses).
Theorem C41_if_refuted : exists g, well_formed g = true /\ outputs_once g /\ scalar_outputs_unread g /\ ~ accepted (codegen_forward g).
Proof.
  exists (if_g ["p"; "q"]). split; [vm_compute; reflexivity|]. split; [|split].
  - unfold outputs_once. cbn. repeat constructor; cbn; intuition discriminate.
  - intros a n c Ha Hs. exfalso. in_cases; discriminate.
  - intros H; apply H; vm_compute; reflexivity.
Qed.
Print Assumptions C41_if_refuted.
(** Used once afterwards, it is accepted. *)
Example C41_if_once : accepted (codegen_forward (if_g ["p"])).
Proof. intros H. vm_compute in H. discriminate. Qed.

(** A scalar computed in a branch, read there and returned by it. *)
Theorem C41_sub_output_refuted : exists g, well_formed g = true /\ outputs_once g /\ scalar_outputs_unread g /\ ~ accepted (codegen_forward g).
Proof.
  exists (CGraph [tn "x"; nat_ "c"]
    [IfNode (nat_ "c") [tn "x"] [sc "y"; tn "z"] ["x"]
       (CGraph [] [Plain [tn "x"] [sc "t"] [Owned (tn "x")]; Plain [sc "t"] [tn "u"] [Owned (sc "t")]] [sc "t"; tn "u"])
       (CGraph [] [Plain [tn "x"] [sc "e"] [Owned (tn "x")]; Plain [sc "e"] [tn "v"] [Owned (sc "e")]] [sc "e"; tn "v"])]
    [tn "z"]).
  split; [vm_compute; reflexivity|]. split; [|split].
  - unfold outputs_once. cbn. repeat constructor; cbn; intuition discriminate.
  - intros a n c Ha Hs. exfalso. in_cases; discriminate.
  - intros H; apply H; vm_compute; reflexivity.
Qed.
Print Assumptions C41_sub_output_refuted.

(** A Loop moves its initial state even if it is used later. *)
Definition none_ : arg := mkArg "" (ScalarNative I64) VOptional.
Definition loop_g (count : arg) (ins uses : list string) : cgraph :=
  CGraph (tn "x" :: map tn ins ++ if is_optional count then [] else [count])
    (LoopNode count none_ [tn "x"] [] [tn "y"] []
       (CGraph [nat_ "i"; nat_ "ci"; tn "v"] [plain ["v"] ["w"]] [nat_ "ci"; tn "w"])
     :: map (fun o => plain ["x"] [o]) uses)
    (tn "y" :: map tn uses).
Theorem C41_loop_refuted : exists g, well_formed g = true /\ outputs_once g /\ scalar_outputs_unread g /\ ~ accepted (codegen_forward g).
Proof.
  exists (loop_g none_ [] ["p"]). split; [vm_compute; reflexivity|]. split; [|split].
  - unfold outputs_once. cbn. repeat constructor; cbn; intuition discriminate.
  - intros a n c Ha Hs. exfalso. in_cases; discriminate.
  - intros H; apply H; vm_compute; reflexivity.
Qed.
Print Assumptions C41_loop_refuted.
(** If it is not, the loop is accepted. *)
Example C41_loop_once : accepted (codegen_forward (loop_g none_ [] [])).
Proof. intros H. vm_compute in H. discriminate. Qed.

(** A trip count that is a tensor is moved in the head of the while loop, so
    the second test uses it after the move. *)
Theorem C41_loop_count_refuted : exists g, well_formed g = true /\ outputs_once g /\ scalar_outputs_unread g /\ ~ accepted (codegen_forward g).
Proof.
  exists (loop_g (mkArg "m" (ScalarTensor I64) VDynamic) [] []). split; [vm_compute; reflexivity|]. split; [|split].
  - unfold outputs_once. cbn. repeat constructor; cbn; intuition discriminate.
  - intros a n c Ha Hs. exfalso. in_cases; discriminate.
  - intros H; apply H; vm_compute; reflexivity.
Qed.
Print Assumptions C41_loop_count_refuted.
(** A native trip count is accepted. *)
Example C41_loop_count_native : accepted (codegen_forward (loop_g (mkArg "m" (ScalarNative I64) VDynamic) [] [])).
Proof. intros H. vm_compute in H. discriminate. Qed.

(** ** If, Loop and Scan nodes *)
(** A graph of plain nodes, If, Loop and Scan nodes, any number of each, whose
    branches and bodies use values of the enclosing graph under the same or
    under new names, and contain such nodes in turn, to any depth: the function is accepted, if no value is taken by both
    branches of an If and used more than once afterwards ([li_both]), a tensor a
    Loop or Scan starts with is not used again ([li_init]), the trip count of a
    Loop is a number ([ll_count]), its results can be assigned in order
    ([ll_once], [ll_place]) and a Scan does not collect a state as it came in
    ([ls_collected]); all are refuted without.  A loop is accepted for any number of
    iterations: [Loop_] asks that the body can be run once, and again from
    there.  Missing: captured values with a new name that both branches use
    (refuted below). *)
Theorem C41_flow_accepted_partial : forall g, legal_flow g -> outputs_once g -> scalars_unread g -> accepted (codegen_forward g).
Proof. intros g [L N]. exact (accepted_flow g L N). Qed.
Print Assumptions C41_flow_accepted_partial.

(** [x] is used by both branches, several times, and afterwards; [v] goes into
    one branch as [v_in] and is returned. *)
Definition thn_g : cgraph := CGraph [] [plain ["x"; "v_in"] ["t"]; plain ["t"; "v_in"; "x"] ["t2"]] [tn "t2"].
Definition els_g : cgraph := CGraph [] [plain ["x"] ["e"]] [tn "e"].
Definition ifs_g : cgraph :=
  CGraph [tn "x"; tn "w"; nat_ "c"]
    [plain ["w"] ["v"]; IfNode (nat_ "c") [tn "x"; tn "v"] [tn "y"] ["x"; "v_in"] thn_g els_g; plain ["x"; "y"] ["z"]]
    [tn "z"; tn "v"].
Ltac one_of := match goal with H : ?l = ?pre ++ _ :: _ |- _ =>
  destruct pre as [|? [|? [|? [|? ?]]]]; cbn in H; try discriminate; injection H; intros; subst end.
Ltac counts_all :=
  repeat match goal with |- context [count_occ string_dec ?l ?x] =>
    let l' := eval vm_compute in l in progress change (count_occ string_dec l x) with (count_occ string_dec l' x) end;
  cbn [count_occ]; repeat destruct (string_dec _ _); subst; try discriminate; try congruence; lia.
Ltac ends := try match goal with H : [] = ?p ++ _ |- _ => destruct p; discriminate end.
Ltac flow_ssa := cbn; repeat (apply NoDup_cons || apply NoDup_nil); cbn; intuition discriminate.
Ltac flow_order := intros pre n post a E H; cbn in E; one_of; in_cases; cbn; auto 10; ends; try discriminate.
Ltac flow_both := intros pre n post x E; cbn in E; one_of; ends; unfold later_uses, takes, plain; cbn [fold_right gnodes gouts]; cbn beta iota; unfold times; counts_all.
Ltac flow_init := intros pre n post a E H T; cbn in E; one_of; in_cases; ends; vm_compute; lia.
Ltac flow_kind := intros n a b Hn Ha Hb E; in_cases; try discriminate; reflexivity.
Ltac listed := intros a H T; in_cases; try discriminate; reflexivity.
Ltac plain_covered := cbn beta iota delta [plain]; counts.
Ltac shapes := intros x o r H Hs; in_cases; try discriminate; injection H as <- <-; discriminate.
Example thn_legal : legal_branch ["x"; "v_in"] [tn "x"; tn "v"] thn_g.
Proof.
  split; [reflexivity|]. split; [cbv zeta; split; [|split]|].
  - split; [flow_ssa|flow_order| |flow_both|flow_init|flow_kind|].
    + intros n x [<-|[<-|[]]]; plain_covered.
    + intros a H. in_cases. exists (tn "t2"). repeat split. right. eexists. split; [right; left; reflexivity|]. cbn. auto.
  - unfold outputs_once. flow_ssa.
  - intros a n c Ha Hs. exfalso. in_cases; discriminate.
  - shapes.
Qed.
Example els_legal : legal_branch ["x"; "v_in"] [tn "x"; tn "v"] els_g.
Proof.
  split; [reflexivity|]. split; [cbv zeta; split; [|split]|].
  - split; [flow_ssa|flow_order| |flow_both|flow_init|flow_kind|].
    + intros n x [<-|[]]; plain_covered.
    + intros a H. in_cases. exists (tn "e"). repeat split. right. eexists. split; [left; reflexivity|]. cbn. auto.
  - unfold outputs_once. flow_ssa.
  - intros a n c Ha Hs. exfalso. in_cases; discriminate.
  - shapes.
Qed.
Example ifs_legal : legal_flow ifs_g.
Proof.
  split.
  - split; [flow_ssa|flow_order| |flow_both|flow_init|flow_kind|].
    + intros n x [<-|[<-|[<-|[]]]]; [plain_covered|listed|plain_covered].
    + intros a H. in_cases.
      * exists (tn "z"). repeat split. right. eexists. split; [right; right; left; reflexivity|]. cbn. auto.
      * exists (tn "v"). repeat split. right. eexists. split; [left; reflexivity|]. cbn. auto.
  - intros n [<-|[<-|[<-|[]]]]; [exact I| |exact I]. split; [reflexivity|]. split; [split; [exact thn_legal|]|split; [exact els_legal|]]; cbn; tauto.
Qed.
Example ifs_once : outputs_once ifs_g.
Proof. unfold outputs_once. cbn. repeat constructor; cbn; intuition discriminate. Qed.
Example ifs_unread : scalars_unread ifs_g.
Proof. intros a n b Ha Hs. exfalso. in_cases; discriminate. Qed.
Example ifs_code : codegen_forward ifs_g =
  [Let ["x"; "w"; "c"]; Use "w" Moved; Let ["v"]; Use "c" Copied;
   If_ [Use "x" Cloned; Let ["x"]; Use "v" Cloned; Let ["v_in"];
        Use "x" Cloned; Use "v_in" Cloned; Let ["t"]; Use "t" Moved; Use "v_in" Moved; Use "x" Cloned; Let ["t2"]; Use "t2" Moved]
       [Use "x" Cloned; Let ["x"]; Use "x" Moved; Let ["e"]; Use "e" Moved];
   Let ["y"]; Use "x" Moved; Use "y" Moved; Let ["z"]; Use "z" Moved; Use "v" Moved].
Proof. reflexivity. Qed.

(** An If inside a branch of an If: the inner branches use [x] and [t], both
    of the inner If; [x] is used again in the outer branch and afterwards. *)
Definition in1_g : cgraph := CGraph [] [plain ["x"; "t"] ["p"]] [tn "p"].
Definition in2_g : cgraph := CGraph [] [plain ["t_in"] ["q"]] [tn "q"].
Definition deep_g : cgraph :=
  CGraph [] [plain ["x"] ["t"]; plain ["t"] ["t3"]; IfNode (nat_ "d") [tn "x"; tn "t"; tn "t3"] [tn "u"] ["x"; "t"; "t_in"] in1_g in2_g; plain ["u"; "x"] ["u2"]] [tn "u2"].
Definition nest_g : cgraph :=
  CGraph [tn "x"; nat_ "c"; nat_ "d"]
    [IfNode (nat_ "c") [tn "x"; nat_ "d"] [tn "y"] ["x"; "d"] deep_g els_g; plain ["x"; "y"] ["z"]] [tn "z"].
Example in1_legal : legal_branch ["x"; "t"; "t_in"] [tn "x"; tn "t"; tn "t3"] in1_g.
Proof.
  split; [reflexivity|]. split; [cbv zeta; split; [|split]|].
  - split; [flow_ssa|flow_order| |flow_both|flow_init|flow_kind|].
    + intros n x [<-|[]]; plain_covered.
    + intros a H. in_cases. exists (tn "p"). repeat split. right. eexists. split; [left; reflexivity|]. cbn. auto.
  - unfold outputs_once. flow_ssa.
  - intros a n c Ha Hs. exfalso. in_cases; discriminate.
  - shapes.
Qed.
Example in2_legal : legal_branch ["x"; "t"; "t_in"] [tn "x"; tn "t"; tn "t3"] in2_g.
Proof.
  split; [reflexivity|]. split; [cbv zeta; split; [|split]|].
  - split; [flow_ssa|flow_order| |flow_both|flow_init|flow_kind|].
    + intros n x [<-|[]]; plain_covered.
    + intros a H. in_cases. exists (tn "q"). repeat split. right. eexists. split; [left; reflexivity|]. cbn. auto.
  - unfold outputs_once. flow_ssa.
  - intros a n c Ha Hs. exfalso. in_cases; discriminate.
  - shapes.
Qed.
Example deep_legal : legal_branch ["x"; "d"] [tn "x"; nat_ "d"] deep_g.
Proof.
  split; [reflexivity|]. split; [cbv zeta; split; [|split]|].
  - split; [flow_ssa|flow_order| |flow_both|flow_init|flow_kind|].
    + intros n x [<-|[<-|[<-|[<-|[]]]]]; [plain_covered|plain_covered|listed|plain_covered].
    + intros a H. in_cases. exists (tn "u2"). repeat split. right. eexists. split; [right; right; right; left; reflexivity|]. cbn. auto.
  - unfold outputs_once. flow_ssa.
  - intros a n c Ha Hs. exfalso. in_cases; discriminate.
  - shapes.
Qed.
Example els_legal' : legal_branch ["x"; "d"] [tn "x"; nat_ "d"] els_g.
Proof.
  split; [reflexivity|]. split; [cbv zeta; split; [|split]|].
  - split; [flow_ssa|flow_order| |flow_both|flow_init|flow_kind|].
    + intros n x [<-|[]]; plain_covered.
    + intros a H. in_cases. exists (tn "e"). repeat split. right. eexists. split; [left; reflexivity|]. cbn. auto.
  - unfold outputs_once. flow_ssa.
  - intros a n c Ha Hs. exfalso. in_cases; discriminate.
  - shapes.
Qed.
Example nest_legal : legal_flow nest_g.
Proof.
  split.
  - split; [flow_ssa|flow_order| |flow_both|flow_init|flow_kind|].
    + intros n x [<-|[<-|[]]]; [listed|plain_covered].
    + intros a H. in_cases. exists (tn "z"). repeat split. right. eexists. split; [right; left; reflexivity|]. cbn. auto.
  - intros n [<-|[<-|[]]]; [|exact I]. split; [reflexivity|]. split; [split; [exact deep_legal|]|split; [exact els_legal'|cbn; tauto]].
    cbn [deep_g fold_right]. split; [exact I|]. split; [exact I|]. split; [|split; exact I].
    split; [reflexivity|]. split; [split; [exact in1_legal|]|split; [exact in2_legal|]]; cbn; tauto.
Qed.

(** A captured value under a new name, used late in one branch and early, twice,
    in the other: the place of the first use is remembered from the first
    branch, so the uses of the second are not counted and the value is moved
    twice. *)
Theorem C41_if_positions_refuted : exists g, well_formed g = true /\ outputs_once g /\ scalars_unread g /\ ~ accepted (codegen_forward g).
Proof.
  exists (CGraph [tn "x"; tn "w"; nat_ "c"]
    [IfNode (nat_ "c") [tn "x"; tn "w"] [tn "y"] ["x_in"; "w"]
       (CGraph [] [plain ["w"] ["a"]; plain ["a"] ["b"]; plain ["b"] ["d"]; plain ["d"; "x_in"] ["t"]] [tn "t"])
       (CGraph [] [plain ["x_in"; "x_in"] ["e"]] [tn "e"])]
    [tn "y"]).
  split; [vm_compute; reflexivity|]. split; [|split].
  - unfold outputs_once. cbn. repeat constructor; cbn; intuition discriminate.
  - intros a n c Ha Hs. exfalso. in_cases; discriminate.
  - intros H; apply H; vm_compute; reflexivity.
Qed.
Print Assumptions C41_if_positions_refuted.

(** A captured shape under a new name is never given that name. *)
Theorem C41_shape_capture_refuted : exists g, well_formed g = true /\ outputs_once g /\ scalars_unread g /\ ~ accepted (codegen_forward g).
Proof.
  pose (sh := fun x => mkArg x (ShapeT 2) VDynamic).
  exists (CGraph [tn "x"; nat_ "c"]
    [Plain [tn "x"] [sh "s"] [Owned (tn "x")];
     IfNode (nat_ "c") [sh "s"] [sh "y"] ["s_in"]
       (CGraph [] [Plain [sh "s_in"] [sh "t"] [Owned (sh "s_in")]] [sh "t"])
       (CGraph [] [Plain [sh "s_in"] [sh "e"] [Owned (sh "s_in")]] [sh "e"])]
    [sh "y"]).
  split; [vm_compute; reflexivity|]. split; [|split].
  - unfold outputs_once. cbn. repeat constructor; cbn; intuition discriminate.
  - intros a n c Ha Hs. exfalso. in_cases; discriminate.
  - intros H; apply H; vm_compute; reflexivity.
Qed.
Print Assumptions C41_shape_capture_refuted.

(** A Loop that carries [v], starting from [x], and [kk], starting from [k] and
    returned as it is; its body takes [w] from outside twice and collects [v1];
    the condition is a scalar on the device; [w] is used again afterwards. *)
Definition body_g : cgraph :=
  CGraph [nat_ "i"; nat_ "ci"; tn "v"; tn "kk"]
    [plain ["v"; "w"] ["v1"]; plain ["v1"; "w"; "kk"] ["v2"]; Plain [tn "v2"] [sc "c2"] [Owned (tn "v2")]]
    [sc "c2"; tn "v2"; tn "kk"; tn "v1"].
Definition flow_g : cgraph :=
  CGraph [tn "x"; tn "w"; tn "k"; nat_ "m"; sc "c0"]
    [LoopNode (nat_ "m") (sc "c0") [tn "x"; tn "k"] [tn "w"] [tn "y"; tn "k2"; tn "ys"] ["w"] body_g; plain ["w"; "y"] ["z"]]
    [tn "z"; tn "k2"; tn "ys"].
Example body_legal : legal_loop (nat_ "m") (sc "c0") [tn "x"; tn "k"] [tn "w"] ["w"] body_g.
Proof.
  split.
  - reflexivity.
  - reflexivity.
  - cbn. lia.
  - right. reflexivity.
  - intros a H. in_cases; reflexivity.
  - cbv zeta. split.
    + split; [flow_ssa|flow_order| |flow_both|flow_init|flow_kind|].
      * intros n x [<-|[<-|[<-|[]]]]; plain_covered.
      * intros a H. in_cases.
        -- exists (sc "c2"). repeat split. right. eexists. split; [right; right; left; reflexivity|]. cbn. auto.
        -- exists (tn "v2"). repeat split. right. eexists. split; [right; left; reflexivity|]. cbn. auto.
        -- exists (tn "kk"). repeat split. left. cbn. auto.
        -- exists (tn "v1"). repeat split. right. eexists. split; [left; reflexivity|]. cbn. auto.
    + intros a n c Ha Hs Hn Hc. in_cases; try discriminate; cbn; discriminate.
  - intros x o r H Hs. in_cases; try discriminate. all: injection H as <- <-; discriminate.
  - cbn. repeat constructor; cbn; intuition discriminate.
  - intros [|[|[|k]]] a E T H; cbn in E; try (destruct k; discriminate); injection E as <-; cbn in H |- *; try reflexivity; exfalso; intuition discriminate.
Qed.
Example flow_legal : legal_flow flow_g.
Proof.
  split.
  - split; [flow_ssa|flow_order| |flow_both|flow_init|flow_kind|].
    + intros n x [<-|[<-|[]]]; [listed|plain_covered].
    + intros a H. in_cases.
      * exists (tn "z"). repeat split. right. eexists. split; [right; left; reflexivity|]. cbn. auto.
      * exists (tn "k2"). repeat split. right. eexists. split; [left; reflexivity|]. cbn. auto.
      * exists (tn "ys"). repeat split. right. eexists. split; [left; reflexivity|]. cbn. auto.
  - intros n [<-|[<-|[]]]; [split; [exact body_legal|cbn; tauto]|exact I].
Qed.
Example flow_once : outputs_once flow_g.
Proof. unfold outputs_once. cbn. repeat constructor; cbn; intuition discriminate. Qed.
Example flow_unread : scalars_unread flow_g.
Proof. intros a n b Ha Hs. exfalso. in_cases; discriminate. Qed.
Example flow_code : codegen_forward flow_g =
  [Let ["x"; "w"; "k"; "m"; "c0"]; Use "c0" Copied; Let ["c0"];
   Block [Use "x" Moved; Let ["v"]; Use "k" Moved; Let ["kk"]; Let ["i"]; Use "c0" Moved; Let ["ci"];
     Loop_ [Use "ci" Copied; Use "i" Copied; Use "m" Copied;
       Block [Use "w" Cloned; Let ["w"];
         Use "v" Moved; Use "w" Cloned; Let ["v1"];
         Use "v1" Cloned; Use "w" Cloned; Use "kk" Cloned; Let ["v2"];
         Use "v2" Cloned; Let ["c2"];
         Use "v1" Copied; Use "v2" Moved; Assign "v"; Use "c2" Moved; Assign "ci"; Assign "i"]];
     Use "v" Moved; Use "kk" Moved];
   Let ["y"; "k2"; "ys"];
   Use "w" Moved; Use "y" Moved; Let ["z"];
   Use "z" Moved; Use "k2" Moved; Use "ys" Moved].
Proof. vm_compute. reflexivity. Qed.

(** A Scan that carries [acc], starting from [x]; its body adds the element [e]
    of the sequence [xs] and [w] from outside, and collects the new value and
    [p]; [xs] and [w] are used again afterwards. *)
Definition scan_b : cgraph :=
  CGraph [tn "acc"; tn "e"] [plain ["acc"; "e"; "w"] ["acc1"]; plain ["acc1"; "e"] ["p"]] [tn "acc1"; tn "acc1"; tn "p"].
Definition scan_g : cgraph :=
  CGraph [tn "x"; tn "xs"; tn "w"]
    [ScanNode [tn "x"] [tn "xs"] [tn "w"] [tn "y"; tn "ys"; tn "ps"] ["w"] scan_b; plain ["w"; "xs"; "y"] ["z"]]
    [tn "z"; tn "ys"; tn "ps"].
Example scan_b_legal : legal_scan [tn "x"] [tn "xs"] [tn "w"] [tn "y"; tn "ys"; tn "ps"] ["w"] scan_b.
Proof.
  split.
  - reflexivity.
  - reflexivity.
  - cbn. lia.
  - split; [discriminate|]. intros a [<-|[]]. eexists. reflexivity.
  - cbv zeta. split.
    + split; [flow_ssa|flow_order| |flow_both|flow_init|flow_kind|].
      * intros n x [<-|[<-|[]]]; plain_covered.
      * intros a H. in_cases.
        -- exists (tn "acc1"). repeat split. right. eexists. split; [left; reflexivity|]. cbn. auto.
        -- exists (tn "acc1"). repeat split. right. eexists. split; [left; reflexivity|]. cbn. auto.
        -- exists (tn "p"). repeat split. right. eexists. split; [right; left; reflexivity|]. cbn. auto.
    + intros a n c Ha Hs. exfalso. in_cases; discriminate.
  - intros x o r H Hs. in_cases; try discriminate. all: injection H as <- <-; discriminate.
  - split.
    + cbn. repeat constructor; cbn; intuition discriminate.
    + intros a H T. in_cases; cbn; intuition discriminate.
  - discriminate.
  - intros a H. in_cases. cbn. split; [discriminate|]. split; [discriminate|]. intros k. unfold stacked. cbn. discriminate.
  - intros x k H. unfold collector. cbn in H |- *. intros E. subst x. repeat (destruct H as [H|H]; [discriminate|]). exact H.
Qed.
Example scan_legal : legal_flow scan_g.
Proof.
  split.
  - split; [flow_ssa|flow_order| |flow_both|flow_init|flow_kind|].
    + intros n x [<-|[<-|[]]]; [listed|plain_covered].
    + intros a H. in_cases.
      * exists (tn "z"). repeat split. right. eexists. split; [right; left; reflexivity|]. cbn. auto.
      * exists (tn "ys"). repeat split. right. eexists. split; [left; reflexivity|]. cbn. auto.
      * exists (tn "ps"). repeat split. right. eexists. split; [left; reflexivity|]. cbn. auto.
  - intros n [<-|[<-|[]]]; [split; [exact scan_b_legal|cbn; tauto]|exact I].
Qed.
Example scan_accepted : outputs_once scan_g /\ scalars_unread scan_g /\ accepted (codegen_forward scan_g).
Proof.
  split; [unfold outputs_once; cbn; repeat constructor; cbn; intuition discriminate|]. split; [intros a n b Ha Hs; exfalso; in_cases; discriminate|].
  intros H. vm_compute in H. discriminate.
Qed.
Example scan_emitted : codegen_forward scan_g =
  [Let ["x"; "xs"; "w"];
   Block [Use "x" Moved; Let ["acc"]; Let ["scan_output_collector_0"]; Let ["scan_output_collector_1"];
     Use "xs" Copied; Let ["seq_len"]; Use "seq_len" Copied;
     Loop_ [Let ["i"];
       Block [Use "xs" Cloned; Use "i" Copied; Let ["e"];
         Use "w" Cloned; Let ["w"];
         Use "acc" Moved; Use "e" Cloned; Use "w" Cloned; Let ["acc1"];
         Use "acc1" Cloned; Use "e" Moved; Let ["p"];
         Use "acc1" Cloned; Assign "acc";
         Use "scan_output_collector_0" Copied; Use "acc1" Moved;
         Use "scan_output_collector_1" Copied; Use "p" Moved]];
     Use "scan_output_collector_0" Cloned; Let ["scan_output_0"];
     Use "scan_output_collector_1" Cloned; Let ["scan_output_1"];
     Use "acc" Moved; Use "scan_output_0" Moved; Use "scan_output_1" Moved];
   Let ["y"; "ys"; "ps"];
   Use "w" Moved; Use "xs" Cloned; Use "y" Moved; Let ["z"];
   Use "z" Moved; Use "ys" Moved; Use "ps" Moved].
Proof. vm_compute. reflexivity. Qed.

(** A Loop whose body holds a Scan, which starts with the carried [v] and goes
    over [xs] from outside the Loop, and an If, whose branches use the result of the
    Scan and [w]. *)
Definition sub_b : cgraph := CGraph [tn "acc"; tn "e"] [plain ["acc"; "e"; "w"] ["acc1"]] [tn "acc1"; tn "acc1"].
Definition sub_t : cgraph := CGraph [] [plain ["s"; "w"] ["t"]] [tn "t"].
Definition sub_e : cgraph := CGraph [] [plain ["s"; "s"] ["u0"]] [tn "u0"].
Definition inside : cgraph :=
  CGraph [nat_ "i"; nat_ "ci"; tn "v"]
    [ScanNode [tn "v"] [tn "xs"] [tn "w"] [tn "s"; tn "ss"] ["w"] sub_b;
     IfNode (nat_ "ci") [tn "s"; tn "w"] [tn "u"] ["s"; "w"] sub_t sub_e;
     plain ["u"; "xs"] ["u2"]]
    [nat_ "ci"; tn "u2"; tn "ss"].
Definition tower : cgraph :=
  CGraph [tn "x"; tn "xs"; tn "w"; nat_ "m"]
    [LoopNode (nat_ "m") none_ [tn "x"] [tn "xs"; tn "w"] [tn "y"; tn "ys"] ["xs"; "w"] inside; plain ["w"; "y"] ["z"]]
    [tn "z"; tn "ys"].
Example sub_b_legal : legal_scan [tn "v"] [tn "xs"] [tn "w"] [tn "s"; tn "ss"] ["w"] sub_b.
Proof.
  split.
  - reflexivity.
  - reflexivity.
  - cbn. lia.
  - split; [discriminate|]. intros a [<-|[]]. eexists. reflexivity.
  - cbv zeta. split.
    + split; [flow_ssa|flow_order| |flow_both|flow_init|flow_kind|].
      * intros n x [<-|[]]; plain_covered.
      * intros a H. in_cases; exists (tn "acc1"); repeat split; right; eexists; (split; [left; reflexivity|]); cbn; auto.
    + intros a n c Ha Hs. exfalso. in_cases; discriminate.
  - intros x o r H Hs. in_cases; try discriminate. all: injection H as <- <-; discriminate.
  - split.
    + cbn. repeat constructor; cbn; intuition discriminate.
    + intros a H T. in_cases; cbn; intuition discriminate.
  - discriminate.
  - intros a H. in_cases. cbn. split; [discriminate|]. split; [discriminate|]. intros k. unfold stacked. cbn. discriminate.
  - intros x k H. unfold collector. cbn in H |- *. intros E. subst x. repeat (destruct H as [H|H]; [discriminate|]). exact H.
Qed.
Example sub_t_legal : legal_branch ["s"; "w"] [tn "s"; tn "w"] sub_t.
Proof.
  split; [reflexivity|]. split; [cbv zeta; split; [|split]|].
  - split; [flow_ssa|flow_order| |flow_both|flow_init|flow_kind|].
    + intros n x [<-|[]]; plain_covered.
    + intros a H. in_cases. exists (tn "t"). repeat split. right. eexists. split; [left; reflexivity|]. cbn. auto.
  - unfold outputs_once. flow_ssa.
  - intros a n c Ha Hs. exfalso. in_cases; discriminate.
  - shapes.
Qed.
Example sub_e_legal : legal_branch ["s"; "w"] [tn "s"; tn "w"] sub_e.
Proof.
  split; [reflexivity|]. split; [cbv zeta; split; [|split]|].
  - split; [flow_ssa|flow_order| |flow_both|flow_init|flow_kind|].
    + intros n x [<-|[]]; plain_covered.
    + intros a H. in_cases. exists (tn "u0"). repeat split. right. eexists. split; [left; reflexivity|]. cbn. auto.
  - unfold outputs_once. flow_ssa.
  - intros a n c Ha Hs. exfalso. in_cases; discriminate.
  - shapes.
Qed.
Example inside_legal : legal_loop (nat_ "m") none_ [tn "x"] [tn "xs"; tn "w"] ["xs"; "w"] inside.
Proof.
  split.
  - reflexivity.
  - reflexivity.
  - cbn. lia.
  - right. reflexivity.
  - intros a H. in_cases; reflexivity.
  - cbv zeta. split.
    + split; [flow_ssa|flow_order| |flow_both|flow_init|flow_kind|].
      * intros n x [<-|[<-|[<-|[]]]]; [listed|listed|plain_covered].
      * intros a H. in_cases.
        -- exists (nat_ "ci"). repeat split. left. cbn. auto.
        -- exists (tn "u2"). repeat split. right. eexists. split; [right; right; left; reflexivity|]. cbn. auto.
        -- exists (tn "ss"). repeat split. right. eexists. split; [left; reflexivity|]. cbn. auto.
    + intros a n c Ha Hs. exfalso. in_cases; discriminate.
  - intros x o r H Hs. in_cases; try discriminate. all: injection H as <- <-; discriminate.
  - cbn. repeat constructor; cbn; intuition discriminate.
  - intros [|[|k]] a E T H; cbn in E; try (destruct k; discriminate); injection E as <-; cbn in H |- *; try reflexivity; try discriminate; exfalso; intuition discriminate.
Qed.
Example tower_legal : legal_flow tower.
Proof.
  split.
  - split; [flow_ssa|flow_order| |flow_both|flow_init|flow_kind|].
    + intros n x [<-|[<-|[]]]; [listed|plain_covered].
    + intros a H. in_cases.
      * exists (tn "z"). repeat split. right. eexists. split; [right; left; reflexivity|]. cbn. auto.
      * exists (tn "ys"). repeat split. right. eexists. split; [left; reflexivity|]. cbn. auto.
  - intros n [<-|[<-|[]]]; [|exact I]. split; [exact inside_legal|]. cbn [inside fold_right]. split; [split; [exact sub_b_legal|cbn; tauto]|]. split; [|split; exact I].
    split; [reflexivity|]. split; [split; [exact sub_t_legal|]|split; [exact sub_e_legal|]]; cbn; tauto.
Qed.
Example tower_accepted : outputs_once tower /\ scalars_unread tower /\ accepted (codegen_forward tower).
Proof.
  split; [unfold outputs_once; cbn; repeat constructor; cbn; intuition discriminate|]. split; [intros a n b Ha Hs; exfalso; in_cases; discriminate|].
  intros H. vm_compute in H. discriminate.
Qed.

(** A body that collects a state as it came in: pushing the state moves it, and
    the next iteration reads it. *)
Theorem C41_scan_collected_refuted : exists g, well_formed g = true /\ outputs_once g /\ scalars_unread g /\ ~ accepted (codegen_forward g).
Proof.
  exists (CGraph [tn "x"; tn "xs"]
    [ScanNode [tn "x"] [tn "xs"] [] [tn "y"; tn "ys"] [] (CGraph [tn "acc"; tn "e"] [plain ["acc"; "e"] ["acc1"]] [tn "acc1"; tn "acc"])]
    [tn "y"; tn "ys"]).
  split; [vm_compute; reflexivity|]. split; [|split].
  - unfold outputs_once. cbn. repeat constructor; cbn; intuition discriminate.
  - intros a n c Ha Hs. exfalso. in_cases; discriminate.
  - intros H; apply H; vm_compute; reflexivity.
Qed.
Print Assumptions C41_scan_collected_refuted.

(** A Scan moves the initial value of a state even if it is used later, here as
    the sequence of the same Scan. *)
Theorem C41_scan_init_refuted : exists g, well_formed g = true /\ outputs_once g /\ scalars_unread g /\ ~ accepted (codegen_forward g).
Proof.
  exists (CGraph [tn "x"]
    [ScanNode [tn "x"] [tn "x"] [] [tn "y"] [] (CGraph [tn "acc"; tn "e"] [plain ["acc"; "e"] ["acc1"]] [tn "acc1"])]
    [tn "y"]).
  split; [vm_compute; reflexivity|]. split; [|split].
  - unfold outputs_once. cbn. repeat constructor; cbn; intuition discriminate.
  - intros a n c Ha Hs. exfalso. in_cases; discriminate.
  - intros H; apply H; vm_compute; reflexivity.
Qed.
Print Assumptions C41_scan_init_refuted.

(** A body that exchanges its carried tensors: the first assignment moves the
    second variable, the second moves the first back, which is left empty. *)
Theorem C41_loop_exchange_refuted : exists g, well_formed g = true /\ outputs_once g /\ scalars_unread g /\ ~ accepted (codegen_forward g).
Proof.
  exists (CGraph [tn "x"; tn "y"; nat_ "m"]
    [LoopNode (nat_ "m") none_ [tn "x"; tn "y"] [] [tn "p"; tn "q"] []
       (CGraph [nat_ "i"; nat_ "ci"; tn "a"; tn "b"] [] [nat_ "ci"; tn "b"; tn "a"])]
    [tn "p"; tn "q"]).
  split; [vm_compute; reflexivity|]. split; [|split].
  - unfold outputs_once. cbn. repeat constructor; cbn; intuition discriminate.
  - intros a n c Ha Hs. exfalso. in_cases; discriminate.
  - intros H; apply H; vm_compute; reflexivity.
Qed.
Print Assumptions C41_loop_exchange_refuted.

(** A body that makes one tensor the next value of two variables. *)
Theorem C41_loop_twice_refuted : exists g, well_formed g = true /\ outputs_once g /\ scalars_unread g /\ ~ accepted (codegen_forward g).
Proof.
  exists (CGraph [tn "x"; tn "y"; nat_ "m"]
    [LoopNode (nat_ "m") none_ [tn "x"; tn "y"] [] [tn "p"; tn "q"] []
       (CGraph [nat_ "i"; nat_ "ci"; tn "a"; tn "b"] [plain ["a"; "b"] ["c"]] [nat_ "ci"; tn "c"; tn "c"])]
    [tn "p"; tn "q"]).
  split; [vm_compute; reflexivity|]. split; [|split].
  - unfold outputs_once. cbn. repeat constructor; cbn; intuition discriminate.
  - intros a n c Ha Hs. exfalso. in_cases; discriminate.
  - intros H; apply H; vm_compute; reflexivity.
Qed.
Print Assumptions C41_loop_twice_refuted.
