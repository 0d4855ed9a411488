(** C77: constant data survives finalization, at any depth. *)
From Verif Require Import IR_Model Final_Spec Final_Model Final_Proofs.

(** The arguments that the nodes read stay, in order and at any depth, with
    their names and sources. *)
Theorem C77_same_arguments : forall (D : Type) (g : fgraph D),
  Forall2 (fun p q => fname (fst p) = fname (fst q) /\ fsrc (fst p) = fsrc (fst q) /\ snd p = snd q)
    (places [] g) (places [] (convert_to_graph g)).
Proof.
  intros D g. eapply Forall2_impl; [|exact (top_places g)]. intros p q [Hs [-> | [vs [_ ->]]]]; [auto|].
  unfold attach. match goal with |- context [if ?b then _ else _] => destruct b end; cbn; auto.
Qed.
Print Assumptions C77_same_arguments.

(** Numbered data that an argument could read before, it reads after: the same
    data, whichever graph's store it is in. *)
Theorem C77_static_kept : forall (D : Type) (g : fgraph D),
  Forall2 (fun p q => forall id d, fsrc (fst p) = VStatic id -> reading (fst p) = Some d -> value (fst q) = Some d)
    (places [] g) (places [] (convert_to_graph g)).
Proof.
  intros D g. eapply Forall2_impl; [|exact (top_places g)]. intros p q [Hs [-> | [vs [_ ->]]]] id d Hid Hd; [exact Hd|].
  unfold attach, value, reading in *. rewrite Hid in *. destruct (fstore (fst p)) as [s|] eqn:Es; [|discriminate Hd].
  rewrite Hd. rewrite Es, Hid. exact Hd.
Qed.
Print Assumptions C77_static_kept.

(** Numbered data that had no store yet is read from the store of the graph
    around it. *)
Theorem C77_static_attached : forall (D : Type) (g : fgraph D), stored g ->
  Forall2 (fun p q => forall id, fsrc (fst p) = VStatic id -> reading (fst p) = None ->
             exists s, hd None (snd q) = Some s /\ value (fst q) = tensors s id)
    (places [] g) (places [] (convert_to_graph g)).
Proof.
  intros D g Hst. eapply Forall2_impl; [|exact (top_places_full g Hst)]. intros p q [Hs [vs [Hh ->]]] id Hid Hd.
  exists vs. rewrite <- Hs. split; [exact Hh|]. unfold attach, value, reading in *. rewrite Hid in *.
  destruct (fstore (fst p)) as [s|] eqn:Es.
  - rewrite Hd. cbn. rewrite Hid. reflexivity.
  - cbn. rewrite Hid. reflexivity.
Qed.
Print Assumptions C77_static_attached.

(** Full statement: an argument that names a constant reads the constant the
    name stands for,
      [value (fst q) = visible (snd q) (fname (fst q))].
    Proved for constants of the graph around the argument.  Missing: constants
    of outer graphs (see [C77_outer_constant_lost]). *)
Theorem C77_constant_partial : forall (D : Type) (g : fgraph D), stored g ->
  Forall2 (fun p q => fsrc (fst p) = VConstant ->
             (exists s, hd None (snd q) = Some s /\ constants s (fname (fst q)) <> None) ->
             value (fst q) = visible (snd q) (fname (fst q)))
    (places [] g) (places [] (convert_to_graph g)).
Proof.
  intros D g Hst. eapply Forall2_impl; [|exact (top_places_full g Hst)]. intros p q [Hs [vs [Hh ->]]] Hc [s [Hq Hin]].
  rewrite <- Hs in *. rewrite Hh in Hq. injection Hq as <-. destruct (snd p) as [|o r]; [discriminate Hh|]. cbn in Hh. subst o.
  unfold attach, value, reading in *. rewrite Hc in *. cbn in *. rewrite Hc. unfold constant_in in *.
  destruct (constants vs (fname (fst p))); [reflexivity|congruence].
Qed.
Print Assumptions C77_constant_partial.

(** An argument that names a constant of an outer graph only reads nothing after
    finalization, whatever it read before. *)
Theorem C77_outer_constant_lost : forall (D : Type) (g : fgraph D), stored g ->
  Forall2 (fun p q => fsrc (fst p) = VConstant ->
             (forall s, hd None (snd q) = Some s -> constants s (fname (fst q)) = None) -> value (fst q) = None)
    (places [] g) (places [] (convert_to_graph g)).
Proof.
  intros D g Hst. eapply Forall2_impl; [|exact (top_places_full g Hst)]. intros p q [Hs [vs [Hh ->]]] Hc Hn.
  rewrite <- Hs in *. specialize (Hn vs Hh). unfold attach, value, reading in *. rewrite Hc in *. cbn in *. rewrite Hc.
  unfold constant_in in *. rewrite Hn. reflexivity.
Qed.
Print Assumptions C77_outer_constant_lost.

(** What nodes and graphs give, and what graphs take, stays with name and source;
    a constant there is read from the store of its own graph, and so is numbered
    data that could not be read before. *)
Theorem C77_ends : forall (D : Type) (g : fgraph D), stored g ->
  Forall2 (fun p q => fname (fst p) = fname (fst q) /\ fsrc (fst p) = fsrc (fst q) /\ snd p = snd q
             /\ exists s, snd q = Some s
                /\ (fsrc (fst p) = VConstant -> value (fst q) = constant_in s (fname (fst p)))
                /\ (forall id, fsrc (fst p) = VStatic id -> reading (fst p) = None -> value (fst q) = tensors s id))
    (ends g) (ends (convert_to_graph g)).
Proof.
  intros D g Hst. eapply Forall2_impl; [|exact (top_ends g Hst)]. intros [a o] [b o'] [Hs [vs [Hh Hb]]].
  cbn [fst snd] in *. subst o o'.
  assert (H : fname a = fname b /\ fsrc a = fsrc b
    /\ (fsrc a = VConstant -> fstore b = Some vs)
    /\ (forall id, fsrc a = VStatic id -> reading a = None -> fstore b = Some vs)).
  { destruct Hb as [-> | ->].
    - unfold attach, reading, set_store. destruct a as [x sr st]. cbn [fsrc fstore fname].
      destruct sr as [id| | |]; cbn [fsrc fstore fname]; try (repeat split; intros; congruence).
      destruct st as [s|]; cbn [fsrc fstore fname]; [|repeat split; intros; congruence].
      destruct (tensors s id) eqn:E; cbn [fsrc fstore fname]; repeat split; intros; congruence.
    - cbn. repeat split; congruence. }
  destruct H as [Hn [Hsrc [Hc Hi]]]. split; [exact Hn|]. split; [exact Hsrc|]. split; [reflexivity|].
  exists vs. split; [reflexivity|]. split.
  - intros H. unfold value. rewrite (Hc H), <- Hsrc, H, Hn. reflexivity.
  - intros id H Hr. unfold value. rewrite (Hi id H Hr), <- Hsrc, H. reflexivity.
Qed.
Print Assumptions C77_ends.

(** Graphs inside nodes are finalized once when they are built and again with
    every graph around them; the repetitions change nothing. *)
Theorem C77_idempotent : forall (D : Type) (g : fgraph D), convert_to_graph (convert_to_graph g) = convert_to_graph g.
Proof.
  intros D [ns ins outs [vs|]]; [|reflexivity]. cbn [convert_to_graph]. rewrite !map_map. f_equal.
  apply map_ext. intros n. apply node_twice.
Qed.
Print Assumptions C77_idempotent.

(** ** A case: a graph with the constants [w] and [b], and an If whose branch has
    a constant [c] of its own. *)
Local Open Scope string_scope.
Definition outer_store : vstore N := mkStore
  (fun id => if (id =? 0)%N then Some 10%N else if (id =? 1)%N then Some 11%N else None)
  (fun x => if String.eqb x "w" then Some 0%N else if String.eqb x "b" then Some 1%N else None).
Definition inner_store : vstore N := mkStore
  (fun id => if (id =? 0)%N then Some 20%N else None)
  (fun x => if String.eqb x "c" then Some 0%N else None).
Definition branch : fgraph N := FGraph
  [FNode [mkFarg "" (VStatic 0) (Some outer_store); mkFarg "" (VStatic 0) None; mkFarg "c" VConstant None;
          mkFarg "w" VConstant (Some outer_store)] [mkFarg "y" VDynamic None] []]
  [] [mkFarg "y" VDynamic None] (Some inner_store).
Definition whole : fgraph N := FGraph
  [FNode [mkFarg "p" VDynamic None; mkFarg "b" VConstant None] [mkFarg "z" VDynamic None] [branch]]
  [mkFarg "p" VDynamic None] [mkFarg "z" VDynamic None] (Some outer_store).

Example C77_whole_stored : stored whole.
Proof. cbn. repeat split; discriminate. Qed.
Example C77_whole : map (fun p => value (fst p)) (places [] (convert_to_graph whole))
  = [None; Some 11%N; Some 10%N; Some 20%N; Some 20%N; None].
Proof. reflexivity. Qed.

(** The full statement is false: the last argument named a constant of the graph
    around the If, and had its data before. *)
Theorem C77_constant_refuted : exists (g : fgraph N), stored g
  /\ ~ Forall2 (fun p q => fsrc (fst p) = VConstant -> value (fst q) = visible (snd q) (fname (fst q)))
         (places [] g) (places [] (convert_to_graph g)).
Proof.
  exists whole. split; [exact C77_whole_stored|]. intros H. cbn in H.
  do 5 (inversion H as [|? ? ? ? _ H0]; subst; clear H; rename H0 into H).
  inversion H as [|? ? ? ? Hp _]; subst. specialize (Hp eq_refl). discriminate Hp.
Qed.
Print Assumptions C77_constant_refuted.
