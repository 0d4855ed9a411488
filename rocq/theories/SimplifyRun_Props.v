(** C49: what the optimised graph computes. *)
From Flocq Require Import BinarySingleNaN.
From Verif Require Import Simplify_Spec Simplify_Proofs Simplify_Run Fold_Props.
Open Scope string_scope. Open Scope list_scope. Open Scope N_scope.

(** The optimised graph runs wherever the graph did, and every graph output has
    the value it had, after any number of rounds of all passes.  Missing: the
    attention and the permute-reshape pass have nothing to do ([plain], see C35
    and C39 for what they do), arithmetic with a neutral constant gives back the
    other operand in the run considered (not so for -0 + 0 or when the constant
    has the larger shape), and the limits of C36 on Shape and Slice nodes. *)
Theorem C49_simplify_preserves_partial : forall dbg sem inputs g g' inputs' e0 ef,
  constants_mean sem -> shapes_mean sem -> folded_mean sem -> idempotent_mean sem ->
  plain dbg (gs_store g) e0 (gs_nodes g) ef ->
  run sem (st_get (gs_store g)) e0 (gs_nodes g) = Some ef ->
  simplify_graph dbg inputs g = Done (g', inputs') ->
  map aname (gs_outputs g') = map aname (gs_outputs g) /\
  exists e', run sem (st_get (gs_store g')) e0 (gs_nodes g') = Some e' /\
    forall x, In x (map aname (gs_outputs g)) -> e' x = ef x.
Proof.
  intros dbg sem inputs g g' inputs' e0 ef Hc Hs Hf Hi Hp Hr H. destruct (simplify_inv _ _ _ _ _ H) as [_ Hrs].
  destruct (rounds_plain sem dbg Hc Hs Hf Hi _ e0 ef g g' Hp Hr Hrs) as (e' & _ & R & O & X). split; [exact O|]. exists e'. auto.
Qed.
Print Assumptions C49_simplify_preserves_partial.

(** ** A graph that meets the hypotheses *)
Definition c49_sem (t : string) (attrs : list (string * attr)) (k : nat) (vs : list (option fdata)) : option (list fdata) :=
  if String.eqb t "Relu" then
    match k, vs with
    | 1%nat, [Some (mkFD sh (XI64 l))] => Some [mkFD sh (XI64 (map (Z.max 0) l))]
    | _, _ => None
    end
  else ex_sem t attrs k vs.
Lemma c49_constants : constants_mean c49_sem.
Proof. intros attrs w. reflexivity. Qed.
Lemma c49_shapes : shapes_mean c49_sem.
Proof. exact ex_shapes. Qed.
Lemma c49_folded : folded_mean c49_sem.
Proof.
  intros t attrs vs outs Ht H. apply (ex_folded t attrs vs outs Ht). unfold c49_sem in H.
  destruct (String.eqb_spec t "Relu") as [->|_]; [|exact H]. cbn in Ht. intuition discriminate.
Qed.
Lemma c49_idempotent : idempotent_mean c49_sem.
Proof.
  split.
  - intros t at1 at2 x w Ht H. unfold c49_sem in *. destruct (String.eqb_spec t "Relu") as [->|Hn].
    + destruct x as [sh [l| | | |]]; try discriminate. injection H as <-. do 2 f_equal. f_equal. f_equal. rewrite map_map. apply map_ext. lia.
    + exfalso. destruct Ht as [<-|[<-|[<-|[<-|[<-|[<-|[]]]]]]]; [contradiction|discriminate..].
  - intros t at1 k vs ws Ht H. unfold c49_sem in *. destruct (String.eqb_spec t "Relu") as [->|Hn].
    + destruct k as [|[|]]; try discriminate. destruct vs as [|[[sh [l| | | |]]|] [|]]; try discriminate. injection H as <-. eauto.
    + exfalso. unfold ex_sem in H. destruct (negb _) in H; [discriminate|].
      destruct Ht as [<-|[<-|[<-|[<-|[<-|[<-|[]]]]]]]; [contradiction|discriminate..].
Qed.

Definition it : argty := TensorT (mkTT I64 1 (Some [Some 1])).
Definition va (x : string) : arg := mkArg x it VDynamic.
Definition c49_nodes : list rnode :=
  [mkNode "Constant" "c" [mkArg "" it (VStatic 0)] [mkArg "zero" it VConstant] [];
   mkNode "Shape" "sh" [va "x"] [mkArg "s" (ShapeT 1) VDynamic] [];
   mkNode "Gather" "ga" [mkArg "s" (ShapeT 1) VDynamic; mkArg "" (ScalarNative I64) (VStatic 1)] [mkArg "g" (ScalarNative I64) VDynamic] [];
   mkNode "Relu" "r1" [va "x"] [va "r"] [];
   mkNode "Add" "a1" [va "r"; mkArg "zero" it VConstant] [va "y"] [];
   mkNode "Relu" "r2" [va "y"] [va "z"] [];
   mkNode "Relu" "r3" [va "x"] [va "q"] [];
   mkNode "Add" "a2" [va "z"; va "q"] [va "w"] []].
Definition c49_store : store := mkStore 2 [(0, mkFD [1] (XI64 [0]%Z)); (1, mkFD [] (XI64 [0]%Z))] [("zero", 0)].
Definition c49_outputs : list arg := [va "w"; mkArg "g" (ScalarNative I64) VDynamic].
Definition c49_input : string -> option fdata := fun x => if String.eqb x "x" then Some (mkFD [1] (XI64 [5]%Z)) else None.
Definition no_print (_ : attr) : string := "".

Ltac each H := destruct H as [<-|[<-|[<-|[<-|[<-|[<-|[<-|[<-|[]]]]]]]]].

Example C49_ex :
  (exists ef, run c49_sem (st_get c49_store) c49_input c49_nodes = Some ef /\ plain no_print c49_store c49_input c49_nodes ef /\
     ef "w" = Some (mkFD [1] (XI64 [10]%Z)) /\ ef "g" = Some (mkFD [] (XI64 [1]%Z))) /\
  (exists g', simplify_graph no_print [va "x"] (mkGS c49_store c49_nodes c49_outputs) = Done (g', [va "x"]) /\
     map (fun n => (ntype n, map aname (ninputs n), map aname (noutputs n))) (gs_nodes g') =
       [("Constant", ["g_const"], ["g"]); ("Relu", ["x"], ["r"]); ("Add", ["r"; "r"], ["w"])]).
Proof.
  split.
  - eexists. split; [reflexivity|]. split; [|split; vm_compute; reflexivity]. split.
    + split; [repeat constructor; cbn; intuition discriminate|]. intros x Hx. cbn in Hx. intuition (subst; reflexivity).
    + repeat constructor; cbn; intuition discriminate.
    + intros n Hn. split.
      * each Hn; intros o Ho; cbn in Ho; destruct Ho as [<-|[]]; discriminate.
      * intros i Hi. each Hn; cbn in Hi; intuition (subst; cbn; try discriminate; try exact I);
          (intros m Hm Hin; each Hm; cbn in Hin; intuition discriminate).
    + intros x y Hx Hy. cbn in Hx, Hy. intuition (subst; cbn; discriminate).
    + split.
      * intros id d. unfold st_get, c49_store. cbn [st_data st_next find_id]. destruct (N.eqb_spec 0 id); [subst; intros; lia|].
        destruct (N.eqb_spec 1 id); [subst; intros; lia|discriminate].
      * intros x id. cbn [c49_store st_const st_next sget]. destruct (String.eqb "zero" x); [intros H; inversion H; reflexivity|discriminate].
    + intros x id H. cbn [c49_store st_const sget] in H. destruct (String.eqb_spec "zero" x) as [<-|]; [|discriminate]. injection H as <-. split; [reflexivity|].
      intros m Hm Hin. each Hm; cbn in Hin; intuition try discriminate. eexists; eexists. repeat split.
    + intros n Hn _. each Hn; eexists; reflexivity.
    + intros n o r Hn Ht Hs Ho Hr. each Hn; try (exfalso; cbn in Ht; intuition discriminate);
        cbn in Ho; injection Ho as <-; vm_compute in Hr; injection Hr as <-; split; reflexivity.
    + intros n i more x s Hn Ht Hi Hx Hs. each Hn; try discriminate Ht. cbn in Hi. injection Hi as <- <-. vm_compute in Hs. injection Hs as <-.
      cbn in Hx. injection Hx as <-. reflexivity.
    + intros n Hn Ht. each Hn; reflexivity.
    + intros n a w ks Hn Ht _ Ha. each Hn; discriminate.
    + intros n i Hn Ht Hi. each Hn; try (exfalso; cbn in Ht; intuition discriminate); cbn in Hi; intuition (subst; cbn; auto).
    + intros n a b o xa xb xo Hn Hi Ho Ha Hb Hv. each Hn; try discriminate Hi; cbn in Hi, Ho; injection Hi as <- <-; injection Ho as <-;
        vm_compute in Ha, Hb, Hv; injection Ha as <-; injection Hb as <-; injection Hv as <-.
      * split; [intros Ht; cbn in Ht; intuition discriminate|]. split; [discriminate|]. split; [intros Ht; cbn in Ht; intuition discriminate|]. discriminate.
      * split; [reflexivity|]. split; [|split; [intros Ht; cbn in Ht; intuition discriminate|discriminate]].
        intros _ _ (l & E & _ & F). cbn in E. injection E as <-. inversion F as [|? ? K _]. vm_compute in K. discriminate.
      * split; [|split; [|split; [intros Ht; cbn in Ht; intuition discriminate|discriminate]]];
          (intros _ _ (l & E & _ & F); cbn in E; injection E as <-; inversion F as [|? ? K _]; vm_compute in K; discriminate).
    + intros n m Hn Hm a b Ha. each Hn; destruct Ha.
    + intros n Hn. each Hn; discriminate.
    + exists "Concat". split; [right; left; reflexivity|]. intros n Hn. each Hn; discriminate.
  - eexists. split; [vm_compute; reflexivity|]. reflexivity.
Qed.
