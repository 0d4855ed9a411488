(** C12: the names a subgraph takes from the enclosing graph. *)
From Verif Require Import IR_Model Names_Model Import_Model OuterRefs_Model OuterRefs_Spec OuterRefs_Proofs.
Open Scope string_scope.
Open Scope list_scope.
Open Scope N_scope.

(** A subgraph without formal inputs (the branch of an If), with graphs nested
    in it to any depth: the names found are its free names, sanitised. *)
Theorem C12_branch_exact : forall g,
  (forall a b, occurs g a -> occurs g b -> a <> "" -> b <> "" -> san a = san b -> a = b) -> scoped g -> (forall x, ~ formal g x) ->
  forall y, In y (extract_refs g) <-> exists x, y = san x /\ free g x.
Proof. exact extract_branch. Qed.
Print Assumptions C12_branch_exact.

(** Any subgraph: the free names and its own formal inputs.  Missing: the
    formal inputs are not captured, see [C12_body_refuted]. *)
Theorem C12_any_partial : forall g,
  (forall a b, occurs g a -> occurs g b -> a <> "" -> b <> "" -> san a = san b -> a = b) -> scoped g ->
  forall y, In y (extract_refs g) <-> exists x, y = san x /\ (free g x \/ formal g x).
Proof. exact extract_exact. Qed.
Print Assumptions C12_any_partial.

(** What an If node records: the free names of its branches. *)
Theorem C12_node_exact : forall subs,
  (forall sub, In sub subs -> scoped (snd sub) /\ (forall x, ~ formal (snd sub) x) /\
     forall a b, occurs (snd sub) a -> occurs (snd sub) b -> a <> "" -> b <> "" -> san a = san b -> a = b) ->
  forall y, In y (extract_node_refs subs) <-> exists sub x, In sub subs /\ y = san x /\ free (snd sub) x.
Proof.
  intros subs H y. unfold extract_node_refs. rewrite in_flat_map. split.
  - intros (sub & Hs & Hy). destruct (H sub Hs) as (H1 & H2 & H3). apply (extract_branch _ H3 H1 H2) in Hy.
    destruct Hy as (x & E & Hx). exists sub, x. auto.
  - intros (sub & x & Hs & E & Hx). exists sub. split; [exact Hs|]. destruct (H sub Hs) as (H1 & H2 & H3).
    apply (extract_branch _ H3 H1 H2). exists x. auto.
Qed.
Print Assumptions C12_node_exact.

(** The names found, in whatever order, become inputs of the node behind its
    ONNX inputs, and the subgraph finds each of them, and nothing else, in its
    outer scope.  [resolve] looks a name up in the enclosing graph.  Missing:
    names that are already the name of an input, see [C12_scope_refuted]. *)
Theorem C12_scope_partial : forall resolve refs inputs y,
  NoDup refs -> (forall x, In x refs -> ~ In x (map aname inputs)) ->
  (forall x z, In x refs -> In z refs -> aname (resolve z) = x -> z = x) ->
  let rec := record_refs resolve refs inputs in
  firstn (snd (fst rec)) (fst (fst rec)) = inputs /\ snd rec = refs /\
  sget (outer_scope rec) y = (if mem_str y refs then Some (resolve y) else None).
Proof. exact scope_exact. Qed.
Print Assumptions C12_scope_partial.

(** An If branch with a Loop inside, whose body has an If inside. *)
Definition inner : gproto := GP [] ["z"] [] [(mkNH "Add" ["v"; "/Outer/b"] ["z"], [])].
Definition body : gproto := GP ["i"; "cond"; "v"] ["cond"; "w"] ["k"]
  [(mkNH "If" ["cond"] ["u"], [(("then_branch", true), inner); (("else_branch", true), GP [] ["a"] [] [])]);
   (mkNH "Mul" ["u"; "k"] ["w"], [])].
Definition branch : gproto := GP [] ["out"] []
  [(mkNH "Relu" ["x"] ["a"], []); (mkNH "Loop" ["n"; ""; "a"] ["out"], [(("body", true), body)])].
Example C12_ex : scoped branch /\ (forall x, ~ formal branch x) /\
  (forall a b, occurs branch a -> occurs branch b -> a <> "" -> b <> "" -> san a = san b -> a = b) /\
  extract_refs branch = ["x"; "n"; "outer_b"] /\ free branch "/Outer/b" /\ formal body "v" /\
  extract_refs body = ["i"; "cond"; "v"; "cond"; "v"; "outer_b"; "a"; "cond"] /\
  sget (outer_scope (record_refs (fun x => mkArg (x ++ "_1") (ShapeT 1) VDynamic) ["x"; "n"] [mkArg "c" (ShapeT 1) VDynamic])) "n"
    = Some (mkArg "n_1" (ShapeT 1) VDynamic).
Proof.
  assert (Hno : forall ins outs inits nodes, ins = [] -> forall x, ~ formal (GP ins outs inits nodes) x).
  { intros ins outs inits nodes -> x (H & _). exact H. }
  split.
  { constructor. intros nd sub Hnd Hs. cbn in Hnd. destruct Hnd as [<-|[<-|[]]]; [destruct Hs|].
    destruct Hs as [<-|[]]. split; [|left; split; [left; reflexivity|reflexivity]].
    constructor. intros nd sub Hnd Hs. cbn in Hnd. destruct Hnd as [<-|[<-|[]]]; [|destruct Hs].
    destruct Hs as [<-|[<-|[]]]; (split; [|right; apply Hno; reflexivity]); constructor; intros nd sub Hnd Hs; cbn in Hnd.
    - destruct Hnd as [<-|[]]. destruct Hs.
    - destruct Hnd. }
  split; [apply Hno; reflexivity|]. split.
  { assert (Hocc : forall x, occurs branch x -> In x ["out"; "x"; "a"; "n"; ""; "i"; "cond"; "v"; "w"; "k"; "u"; "z"; "/Outer/b"]).
    { assert (Hi : forall x, occurs inner x -> In x ["z"; "v"; "/Outer/b"]).
      { intros x H. remember inner as g. destruct H; subst g; cbn in *; intuition (subst; cbn in *; intuition). }
      assert (He : forall x, occurs (GP [] ["a"] [] []) x -> x = "a").
      { intros x H. remember (GP [] ["a"] [] []) as g. destruct H; subst g; cbn in *; intuition. }
      assert (Hb : forall x, occurs body x -> In x ["i"; "cond"; "v"; "w"; "k"; "u"; "z"; "/Outer/b"; "a"]).
      { intros x H. remember body as g. destruct H as [g x H|g x H|g x H|g nd x Hn H|g nd sub x Hn Hs H]; subst g; cbn in *; try (intuition; fail).
        - destruct Hn as [<-|[<-|[]]]; cbn in H; intuition.
        - destruct Hn as [<-|[<-|[]]]; cbn in Hs; [|destruct Hs]. destruct Hs as [<-|[<-|[]]]; cbn in H.
          + apply Hi in H. cbn in H. intuition.
          + apply He in H. subst. intuition. }
      intros x H. remember branch as g. destruct H as [g x H|g x H|g x H|g nd x Hn H|g nd sub x Hn Hs H]; subst g; cbn in *; try (intuition; fail).
      - destruct Hn as [<-|[<-|[]]]; cbn in H; intuition.
      - destruct Hn as [<-|[<-|[]]]; cbn in Hs; [destruct Hs|]. destruct Hs as [<-|[]]. cbn in H. apply Hb in H. cbn in H. intuition. }
    intros a b Ha Hb _ _ E. apply Hocc in Ha, Hb.
    assert (K : forallb (fun a => forallb (fun b => implb (String.eqb (san a) (san b)) (String.eqb a b))
       ["out"; "x"; "a"; "n"; ""; "i"; "cond"; "v"; "w"; "k"; "u"; "z"; "/Outer/b"])
       ["out"; "x"; "a"; "n"; ""; "i"; "cond"; "v"; "w"; "k"; "u"; "z"; "/Outer/b"] = true) by (vm_compute; reflexivity).
    rewrite forallb_forall in K. specialize (K a Ha). rewrite forallb_forall in K. specialize (K b Hb).
    apply String.eqb_eq in E. rewrite E in K. apply String.eqb_eq. exact K. }
  split; [vm_compute; reflexivity|]. split.
  { assert (Hin : free inner "/Outer/b").
    { eapply free_input; [left; reflexivity|right; left; reflexivity|discriminate|].
      intros [H|[H|(nd & [<-|[]] & H)]]; cbn in H; intuition discriminate. }
    assert (Hbo : free body "/Outer/b").
    { eapply free_nested; [left; reflexivity|left; reflexivity|exact Hin|].
      intros [H|[H|(nd & [<-|[<-|[]]] & H)]]; cbn in H; intuition discriminate. }
    eapply free_nested; [right; left; reflexivity|left; reflexivity|exact Hbo|].
    intros [H|[H|(nd & [<-|[<-|[]]] & H)]]; cbn in H; intuition discriminate. }
  split; [|split; vm_compute; reflexivity].
  split; [cbn; auto|]. split; [discriminate|]. split; [cbn; intuition discriminate|].
  intros (nd & [<-|[<-|[]]] & H); cbn in H; intuition discriminate.
Qed.

(** A Loop records the formal inputs of its body as captured names: here the
    iteration number. *)
Theorem C12_body_refuted : exists g, scoped g /\ In "i" (extract_node_refs [(("body", true), g)]) /\ In "i" (gp_in g) /\ ~ free g "i".
Proof.
  exists (GP ["i"; "c"; "v"] ["c"; "w"] [] [(mkNH "Relu" ["v"] ["w"], [])]). split; [|split; [left; reflexivity|split; [left; reflexivity|]]].
  - constructor. intros nd sub [<-|[]] [].
  - intros H. apply free_unbound in H. apply H. left. left. reflexivity.
Qed.
Print Assumptions C12_body_refuted.

(** An If whose branch reads its condition, a graph input: the name is not
    recorded, and the branch does not find it in its outer scope. *)
Theorem C12_scope_refuted : exists g resolve inputs,
  free g "flag" /\ map aname inputs = ["flag"] /\ resolve "flag" = mkArg "flag" (ScalarNative BoolT) VDynamic /\
  let rec := record_refs resolve (extract_refs g) inputs in
  snd rec = [] /\ sget (outer_scope rec) "flag" = None.
Proof.
  exists (GP [] ["y"] [] [(mkNH "Cast" ["flag"] ["y"], [])]), (fun x => mkArg x (ScalarNative BoolT) VDynamic), [mkArg "flag" (ScalarNative BoolT) VDynamic].
  split.
  - eapply free_input; [left; reflexivity|left; reflexivity|discriminate|].
    intros [H|[H|(nd & [<-|[]] & H)]]; cbn in H; intuition discriminate.
  - repeat (split; [reflexivity|]). split; vm_compute; reflexivity.
Qed.
Print Assumptions C12_scope_refuted.
