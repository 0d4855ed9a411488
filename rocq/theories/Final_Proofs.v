(** Lemmas for C77. *)
From Verif Require Import IR_Model Final_Spec Final_Model.

Section Induction.
  Context {D : Type} (P : fgraph D -> Prop) (Q : fnode D -> Prop).
  Hypothesis HG : forall ns ins outs own, Forall Q ns -> P (FGraph ns ins outs own).
  Hypothesis HN : forall ins outs subs, Forall P subs -> Q (FNode ins outs subs).
  Fixpoint graph_ind2 (g : fgraph D) : P g :=
    match g with
    | FGraph ns ins outs own =>
        HG ns ins outs own ((fix go (l : list (fnode D)) : Forall Q l :=
          match l with [] => Forall_nil _ | n :: r => Forall_cons _ (node_ind2 n) (go r) end) ns)
    end
  with node_ind2 (n : fnode D) : Q n :=
    match n with
    | FNode ins outs subs =>
        HN ins outs subs ((fix go (l : list (fgraph D)) : Forall P l :=
          match l with [] => Forall_nil _ | g :: r => Forall_cons _ (graph_ind2 g) (go r) end) subs)
    end.
End Induction.

Lemma Forall2_impl {A B} (R S : A -> B -> Prop) l m : (forall a b, R a b -> S a b) -> Forall2 R l m -> Forall2 S l m.
Proof. intros H. induction 1; constructor; auto. Qed.

Section Lemmas.
Context {D : Type}.

Lemma value_reading (a : farg D) : value a = reading a.
Proof. reflexivity. Qed.

(** How an argument and its image relate, given the store of its graph. *)
Definition moved (a b : farg D) (own : option (vstore D)) : Prop :=
  b = a \/ exists vs, own = Some vs /\ b = attach vs a.

Definition pair_ok (p q : farg D * list (option (vstore D))) : Prop :=
  snd p = snd q /\ moved (fst p) (fst q) (hd None (snd p)).
Definition pair_full (p q : farg D * list (option (vstore D))) : Prop :=
  snd p = snd q /\ exists vs, hd None (snd p) = Some vs /\ fst q = attach vs (fst p).

Lemma Forall2_map_r {A B} (R : A -> B -> Prop) (f : A -> B) l : (forall x, In x l -> R x (f x)) -> Forall2 R l (map f l).
Proof. induction l; intros H; cbn; constructor; [apply H; left; reflexivity|]. apply IHl. intros x Hx. apply H. right. exact Hx. Qed.

Lemma Forall2_flat_map {A B C} (R : B -> C -> Prop) (f : A -> list B) (g : A -> list C) l :
  (forall x, In x l -> Forall2 R (f x) (g x)) -> Forall2 R (flat_map f l) (flat_map g l).
Proof. induction l; intros H; cbn; [constructor|]. apply Forall2_app; [apply H; left; reflexivity|]. apply IHl. intros x Hx. apply H. right. exact Hx. Qed.

Lemma flat_map_map {A B C} (f : A -> B) (h : B -> list C) l : flat_map h (map f l) = flat_map (fun a => h (f a)) l.
Proof. induction l; cbn; congruence. Qed.

Lemma Forall2_refl {A} (R : A -> A -> Prop) l : (forall x, R x x) -> Forall2 R l l.
Proof. intros H. induction l; constructor; auto. Qed.

Lemma pair_ok_refl p : pair_ok p p.
Proof. split; [reflexivity|left; reflexivity]. Qed.

Lemma sub_places : forall (g : fgraph D) chain, Forall2 pair_ok (places chain g) (places chain (finalize_subgraph g)).
Proof.
  apply (graph_ind2 (fun g => forall chain, Forall2 pair_ok (places chain g) (places chain (finalize_subgraph g)))
    (fun n => forall vs chain, Forall2 pair_ok (node_places (Some vs :: chain) n) (node_places (Some vs :: chain) (finalize_node vs n)))).
  - intros ns ins outs own IH chain. destruct own as [vs|].
    + cbn [finalize_subgraph places]. rewrite flat_map_map. apply Forall2_flat_map. rewrite Forall_forall in IH.
      intros n Hn. apply IH. exact Hn.
    + apply Forall2_refl. exact pair_ok_refl.
  - intros ins outs subs IH vs chain. cbn [finalize_node node_places]. apply Forall2_app.
    + rewrite map_map. induction ins as [|a l IHl]; cbn; constructor; [|exact IHl].
      split; [reflexivity|]. right. exists vs. split; reflexivity.
    + rewrite flat_map_map. apply Forall2_flat_map. rewrite Forall_forall in IH. intros g Hg. apply IH. exact Hg.
Qed.

Lemma top_places (g : fgraph D) : Forall2 pair_ok (places [] g) (places [] (convert_to_graph g)).
Proof.
  destruct g as [ns ins outs [vs|]]; [|apply Forall2_refl; exact pair_ok_refl].
  exact (sub_places (FGraph ns ins outs (Some vs)) []).
Qed.

Lemma fold_and {A} (p : A -> Prop) l : fold_right (fun x q => p x /\ q) True l -> forall x, In x l -> p x.
Proof. induction l; cbn; [tauto|]. intros [H1 H2] x [<-|Hx]; auto. Qed.

Lemma sub_places_full : forall (g : fgraph D) chain, stored g -> Forall2 pair_full (places chain g) (places chain (finalize_subgraph g)).
Proof.
  apply (graph_ind2 (fun g => forall chain, stored g -> Forall2 pair_full (places chain g) (places chain (finalize_subgraph g)))
    (fun n => forall vs chain, node_stored n -> Forall2 pair_full (node_places (Some vs :: chain) n) (node_places (Some vs :: chain) (finalize_node vs n)))).
  - intros ns ins outs own IH chain [Hs Hn]. destruct own as [vs|]; [|congruence].
    cbn [finalize_subgraph places]. rewrite flat_map_map. apply Forall2_flat_map. rewrite Forall_forall in IH.
    intros n Hin. apply IH; [exact Hin|]. exact (fold_and _ _ Hn n Hin).
  - intros ins outs subs IH vs chain Hs. cbn [finalize_node node_places]. apply Forall2_app.
    + clear Hs. rewrite map_map. induction ins as [|a l IHl]; [constructor|]. cbn [map]. apply Forall2_cons; [|exact IHl].
      split; [reflexivity|]. exists vs. split; reflexivity.
    + rewrite flat_map_map. apply Forall2_flat_map. rewrite Forall_forall in IH. intros g Hg. apply IH; [exact Hg|].
      exact (fold_and _ _ Hs g Hg).
Qed.

Lemma top_places_full (g : fgraph D) : stored g -> Forall2 pair_full (places [] g) (places [] (convert_to_graph g)).
Proof.
  destruct g as [ns ins outs [vs|]]; intros Hs; [|destruct Hs as [Hs _]; congruence].
  exact (sub_places_full (FGraph ns ins outs (Some vs)) [] Hs).
Qed.

(** At the ends an argument keeps its store or gets the one of its graph; it
    keeps it only as numbered data that this store has. *)
Definition end_ok (p q : farg D * option (vstore D)) : Prop :=
  snd p = snd q /\ exists vs, snd p = Some vs /\ (fst q = attach vs (fst p) \/ fst q = set_store vs (fst p)).

Lemma ends_here (f : vstore D -> farg D -> farg D) vs l : (f = attach \/ f = set_store) ->
  Forall2 end_ok (map (fun a => (a, Some vs)) l) (map (fun a => (a, Some vs)) (map (f vs) l)).
Proof.
  intros Hf. induction l as [|a l IHl]; [constructor|]. cbn [map]. apply Forall2_cons; [|exact IHl].
  split; [reflexivity|]. exists vs. split; [reflexivity|]. cbn. destruct Hf as [-> | ->]; [left|right]; reflexivity.
Qed.

Lemma sub_ends : forall g : fgraph D, stored g -> Forall2 end_ok (ends g) (ends (finalize_subgraph g)).
Proof.
  apply (graph_ind2 (fun g => stored g -> Forall2 end_ok (ends g) (ends (finalize_subgraph g)))
    (fun n => forall vs, node_stored n -> Forall2 end_ok (node_ends (Some vs) n) (node_ends (Some vs) (finalize_node vs n)))).
  - intros ns ins outs own IH [Hs Hn]. destruct own as [vs|]; [|congruence]. cbn [finalize_subgraph ends].
    apply Forall2_app; [apply ends_here; left; reflexivity|]. apply Forall2_app; [|apply ends_here; right; reflexivity].
    rewrite flat_map_map. apply Forall2_flat_map. rewrite Forall_forall in IH. intros n Hin. apply IH; [exact Hin|].
    exact (fold_and _ _ Hn n Hin).
  - intros ins outs subs IH vs Hs. cbn [finalize_node node_ends].
    apply Forall2_app; [apply ends_here; right; reflexivity|].
    rewrite flat_map_map. apply Forall2_flat_map. rewrite Forall_forall in IH. intros g Hg. apply IH; [exact Hg|].
    exact (fold_and _ _ Hs g Hg).
Qed.

Lemma node_ends_full vs (n : fnode D) : node_stored n -> Forall2 end_ok (node_ends (Some vs) n) (node_ends (Some vs) (finalize_node vs n)).
Proof.
  destruct n as [ins outs subs]. intros Hs. cbn [finalize_node node_ends].
  apply Forall2_app; [apply ends_here; right; reflexivity|].
  rewrite flat_map_map. apply Forall2_flat_map. intros g Hg. apply sub_ends. exact (fold_and _ _ Hs g Hg).
Qed.

Lemma top_ends (g : fgraph D) : stored g -> Forall2 end_ok (ends g) (ends (convert_to_graph g)).
Proof.
  destruct g as [ns ins outs [vs|]]; intros [Hs Hn]; [|congruence]. cbn [convert_to_graph ends].
  apply Forall2_app; [apply ends_here; right; reflexivity|]. apply Forall2_app; [|apply ends_here; right; reflexivity].
  rewrite flat_map_map. apply Forall2_flat_map. intros n Hin. apply node_ends_full. exact (fold_and _ _ Hn n Hin).
Qed.

Lemma attach_attach vs (a : farg D) : attach vs (attach vs a) = attach vs a.
Proof.
  unfold attach, set_store. destruct a as [x s st]. cbn [fsrc fstore fname].
  destruct s as [id| | |]; try reflexivity. destruct st as [s|].
  - destruct (tensors s id) eqn:E; cbn [fsrc fstore fname]; [rewrite E; reflexivity|]. destruct (tensors vs id); reflexivity.
  - cbn [fsrc fstore fname]. destruct (tensors vs id); reflexivity.
Qed.

Lemma sub_twice : forall g : fgraph D, finalize_subgraph (finalize_subgraph g) = finalize_subgraph g.
Proof.
  apply (graph_ind2 (fun g => finalize_subgraph (finalize_subgraph g) = finalize_subgraph g)
    (fun n => forall vs, finalize_node vs (finalize_node vs n) = finalize_node vs n)).
  - intros ns ins outs [vs|] IH; [|reflexivity]. cbn [finalize_subgraph]. rewrite !map_map. f_equal.
    + apply map_ext_in. rewrite Forall_forall in IH. intros n Hn. apply IH. exact Hn.
    + apply map_ext. intros a. apply attach_attach.
  - intros ins outs subs IH vs. cbn [finalize_node]. rewrite !map_map. f_equal.
    + apply map_ext. intros a. apply attach_attach.
    + apply map_ext_in. rewrite Forall_forall in IH. exact IH.
Qed.

Lemma node_twice vs (n : fnode D) : finalize_node vs (finalize_node vs n) = finalize_node vs n.
Proof.
  destruct n as [ins outs subs]. cbn [finalize_node]. rewrite !map_map. f_equal.
  - apply map_ext. intros a. apply attach_attach.
  - apply map_ext. intros g. apply sub_twice.
Qed.
End Lemmas.
