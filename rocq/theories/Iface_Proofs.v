(** Lemmas for C75. *)
From Coq Require Import DecimalString DecimalN.
From Verif Require Import IR_Model Iface_Spec Iface_Model.

Lemma read_dec n : read_number (dec n) = Some n.
Proof.
  pose proof (dec_nonempty n) as Hne. unfold read_number.
  destruct (dec n) eqn:E; [congruence|]. rewrite <- E. unfold dec.
  rewrite NilEmpty.usu, DecimalN.Unsigned.of_to. reflexivity.
Qed.

(** Tokens that may follow a type in a header. *)
Definition follows (r : list token) : Prop :=
  match r with t :: _ => (t = "," \/ t = ")" \/ t = "{")%string | [] => True end.

Lemma follows_not_colons r a q r1 : follows r -> r = a :: q :: r1 -> (a =? "::")%string = false.
Proof. intros H ->. cbn in H. destruct H as [-> | [-> | ->]]; reflexivity. Qed.

Lemma read_type_ok a r : follows r -> (forall d, aty a <> ScalarTensor d) ->
  read_type (arg_type_tokens a ++ r) = Some (public_type (aty a), r).
Proof.
  intros Hf Hn. unfold arg_type_tokens. destruct (aty a) as [d|d|n|t] eqn:E.
  - exfalso. exact (Hn d eq_refl).
  - assert (Hc : forall x, match r with
       | a0 :: q :: r1 => if (a0 =? "::")%string then Some (RPrim [x; q], r1) else Some (RPrim [x], r)
       | _ => Some (RPrim [x], r) end = Some (RPrim [x], r)).
    { intros x. destruct r as [|a0 [|q r1]]; try reflexivity. rewrite (follows_not_colons _ a0 q r1 Hf eq_refl). reflexivity. }
    destruct d; cbn; try reflexivity; apply Hc.
  - cbn [app]. unfold read_type. cbn -[read_number]. rewrite read_dec. reflexivity.
  - unfold tensor_tokens. destruct t as [d rk sh]. cbn [tt_dtype tt_rank].
    destruct d; cbn -[read_number dec]; rewrite read_dec; reflexivity.
Qed.

(** The first token of a type is none of the separators. *)
Lemma type_starts a r : exists t s, arg_type_tokens a ++ r = t :: s /\ (t =? ")")%string = false /\ (t =? "(")%string = false.
Proof.
  unfold arg_type_tokens, tensor_tokens. destruct (aty a) as [d|d|n|[d rk sh]];
    try (destruct d); cbn; eauto.
Qed.

Section Lists.
  Context {X : Type} (item : list token -> option (X * list token)).
  Context {Y : Type} (enc : Y -> list token) (den : Y -> X).
  Variable good : Y -> Prop.
  Hypothesis Hitem : forall y r, good y -> follows r -> item (enc y ++ r) = Some (den y, r).
  Hypothesis Hstart : forall y r, good y -> exists t s, enc y ++ r = t :: s /\ (t =? ")")%string = false.

  Lemma read_list_ok l : forall fuel r, Forall good l -> length l < fuel ->
    read_list fuel item (commas (map enc l) ++ ")"%string :: r)
    = Some (map den l, match l with [] => true | _ => false end, r).
  Proof.
    induction l as [|y l IH]; intros fuel r Hg Hl; (destruct fuel as [|f]; [cbn in Hl; lia|]).
    - reflexivity.
    - inversion Hg as [|? ? Hy Hg']; subst. destruct l as [|y2 l].
      + cbn [map commas]. destruct (Hstart y (")"%string :: r) Hy) as [t [s [E Et]]].
        cbn [read_list]. rewrite E, Et, <- E, Hitem; [reflexivity|exact Hy|cbn; auto].
      + change (commas (map enc (y :: y2 :: l))) with (enc y ++ [","%string] ++ commas (map enc (y2 :: l))).
        rewrite <- app_assoc. cbn [app]. set (rest := commas (map enc (y2 :: l)) ++ ")"%string :: r) in *.
        assert (Er : rest = commas (map enc (y2 :: l)) ++ ")"%string :: r) by reflexivity. clearbody rest.
        destruct (Hstart y (","%string :: rest) Hy) as [t [s [E Et]]].
        cbn [read_list]. rewrite E, Et, <- E, Hitem; [|exact Hy|cbn; auto].
        cbn [String.eqb Ascii.eqb Bool.eqb]. rewrite Er. rewrite IH; [reflexivity|exact Hg'|cbn [length] in *; lia].
  Qed.
End Lists.

Lemma commas_length {A} (enc : A -> list token) l : (forall y, 0 < length (enc y)) -> length l <= length (commas (map enc l)).
Proof.
  intros H. induction l as [|y l IH]; [cbn; lia|]. destruct l as [|y2 l].
  - cbn. specialize (H y). lia.
  - change (commas (map enc (y :: y2 :: l))) with (enc y ++ [","%string] ++ commas (map enc (y2 :: l))).
    rewrite !app_length. cbn [length] in *. specialize (H y). lia.
Qed.

Definition plain (a : arg) : Prop := forall d, aty a <> ScalarTensor d.

Lemma type_tokens_pos a : 0 < length (arg_type_tokens a).
Proof. destruct (type_starts a []) as [t [s [E _]]]. rewrite app_nil_r in E. rewrite E. cbn. lia. Qed.

Lemma read_return_type_ok l r : Forall plain l -> follows r ->
  read_result (codegen_return_type l ++ r) = Some (result_type (map (fun a => public_type (aty a)) l), r).
Proof.
  intros Hp Hf.
  assert (Htup : forall l, Forall plain l -> length l <> 1 ->
    read_result (("("%string :: commas (map arg_type_tokens l) ++ [")"%string]) ++ r)
    = Some (RTuple (map (fun a => public_type (aty a)) l), r)).
  { clear l Hp. intros l Hp Hl. cbn [app]. rewrite <- app_assoc. unfold read_result. cbn [String.eqb Ascii.eqb Bool.eqb app].
    rewrite (read_list_ok read_type arg_type_tokens (fun a => public_type (aty a)) plain).
    - destruct l as [|a [|b l]]; [reflexivity|cbn in Hl; lia|reflexivity].
    - intros y r0 Hy Hr. apply read_type_ok; assumption.
    - intros y r0 _. destruct (type_starts y r0) as [t [s [E [E1 _]]]]. eauto.
    - exact Hp.
    - rewrite app_length. pose proof (commas_length arg_type_tokens l type_tokens_pos). lia. }
  destruct l as [|a [|b l]].
  - apply (Htup []); [constructor|cbn; lia].
  - cbn [codegen_return_type map result_type]. inversion Hp as [|? ? Ha _]; subst.
    unfold read_result. destruct (type_starts a r) as [t [s [E [_ E2]]]]. rewrite E, E2, <- E. apply read_type_ok; assumption.
  - apply (Htup (a :: b :: l)); [exact Hp|cbn; lia].
Qed.

Lemma read_params_ok l fuel r : Forall plain l -> Forall (fun a => aname a <> ")"%string) l -> length l < fuel ->
  read_list fuel read_param (codegen_fn_params l ++ ")"%string :: r)
  = Some (map (fun a => (aname a, public_type (aty a))) l, match l with [] => true | _ => false end, r).
Proof.
  intros Hp Hn Hl. unfold codegen_fn_params.
  apply (read_list_ok read_param (fun a => [arg_ident a; ":"%string] ++ arg_type_tokens a)
           (fun a => (aname a, public_type (aty a))) (fun a => plain a /\ aname a <> ")"%string)).
  - intros y r0 [Hy _] Hr. cbn [app read_param]. rewrite <- ?app_comm_cons. cbn [read_param String.eqb Ascii.eqb Bool.eqb].
    rewrite read_type_ok by assumption. reflexivity.
  - intros y r0 [_ Hy]. cbn [app]. exists (arg_ident y). eexists. split; [reflexivity|]. apply String.eqb_neq. exact Hy.
  - rewrite Forall_forall in *. intros a Ha. split; auto.
  - exact Hl.
Qed.

Lemma read_return_ok l : Forall (fun a => aname a <> ")"%string /\ aname a <> "("%string) l ->
  read_return (codegen_return_expr l ++ ["}"%string]) = Some (map aname l).
Proof.
  intros Hn.
  assert (Htup : read_return (("("%string :: commas (map (fun a => [arg_ident a]) l) ++ [")"%string]) ++ ["}"%string]) = Some (map aname l)).
  { cbn [app]. rewrite <- app_assoc. unfold read_return. cbn [String.eqb Ascii.eqb Bool.eqb app].
    rewrite (read_list_ok read_name (fun a => [arg_ident a]) aname (fun a => aname a <> ")"%string /\ aname a <> "("%string)).
    - reflexivity.
    - intros y r0 _ _. reflexivity.
    - intros y r0 [Hy _]. cbn [app]. eexists. eexists. split; [reflexivity|]. apply String.eqb_neq. exact Hy.
    - exact Hn.
    - rewrite app_length. pose proof (commas_length (fun a => [arg_ident a]) l (fun y => Nat.lt_0_succ 0)). lia. }
  destruct l as [|a [|b l]]; [exact Htup| |exact Htup].
  inversion Hn as [|? ? [_ Ha] _]; subst. cbn [codegen_return_expr app map read_return].
  apply String.eqb_neq in Ha. unfold arg_ident. rewrite Ha. reflexivity.
Qed.

(** ** Registration *)
Lemma lookup_last_some x l a : lookup_last x l = Some a -> In a l /\ aname a = x.
Proof.
  unfold lookup_last. intros H. apply find_some in H. destruct H as [H1 H2].
  rewrite <- in_rev in H1. apply String.eqb_eq in H2. auto.
Qed.

(** The same names and types, whatever the sources. *)
Definition like (a b : arg) : Prop := aname a = aname b /\ aty a = aty b.

Lemma sequence_like {A B} (R : A -> B -> Prop) (f : nat * string -> option A) (l : list B) (nm : B -> string) :
  (forall i b, nth_error l i = Some b -> exists a, f (i, nm b) = Some a /\ R a b) ->
  exists s, sequence (map f (enumerate (map nm l))) = Some s /\ Forall2 R s l.
Proof.
  unfold enumerate. intros H.
  assert (G : forall k, (forall i b, nth_error l i = Some b -> exists a, f (k + i, nm b) = Some a /\ R a b) ->
     exists s, sequence (map f (enumerate_from k (map nm l))) = Some s /\ Forall2 R s l).
  { clear H. induction l as [|b l IH]; intros k H.
    - exists []. split; [reflexivity|constructor].
    - destruct (H 0 b eq_refl) as [a [Ha HR]]. rewrite Nat.add_0_r in Ha.
      destruct (IH (S k)) as [s [Hs H2]].
      { intros i b' Hi. replace (S k + i) with (k + S i) by lia. apply H. exact Hi. }
      exists (a :: s). split; [|constructor; assumption].
      cbn [map enumerate_from sequence]. rewrite Ha, Hs. reflexivity. }
  apply (G 0). exact H.
Qed.

Definition agree (g : igraph) : Prop :=
  forall a n b, In a (ig_ins g) -> In n (ig_nodes g) -> In b (fst n) -> aname b = aname a -> aty b = aty a.

Lemma like_refl l : Forall2 like l l.
Proof. induction l; constructor; [split; reflexivity|assumption]. Qed.

Lemma register_ok g : agree g ->
  exists i o, register_input_output (ig_nodes g) (map aname (ig_ins g)) (map aname (ig_outs g)) (ig_ins g) (ig_outs g) = Some (i, o)
    /\ Forall2 like i (ig_ins g) /\ Forall2 like o (ig_outs g).
Proof.
  intros Ha. destruct g as [nodes ins outs]. cbn [ig_nodes ig_ins ig_outs] in *.
  unfold register_input_output. destruct nodes as [|n nodes].
  - exists ins, outs. split; [reflexivity|]. split; apply like_refl.
  - set (ns := n :: nodes) in *.
    destruct (sequence_like like (fun p => match lookup_last (snd p) (flat_map fst ns) with Some a => Some a | None => nth_error ins (fst p) end) ins aname) as [i [Hi Li]].
    { intros k b Hb. cbn [fst snd]. destruct (lookup_last (aname b) (flat_map fst ns)) as [a|] eqn:E.
      - exists a. split; [reflexivity|]. apply lookup_last_some in E. destruct E as [Hin Hn]. split; [exact Hn|].
        apply in_flat_map in Hin. destruct Hin as [m [Hm1 Hm2]]. apply (Ha b m a); auto. eapply nth_error_In; eauto.
      - exists b. split; [exact Hb|]. split; reflexivity. }
    unfold register_inputs. rewrite Hi.
    assert (Ho : exists o, register_outputs ns (map aname outs) outs = Some o /\ Forall2 like o outs).
    { destruct outs as [|o0 outs]; [exists []; split; [reflexivity|constructor]|].
      eexists. split; [reflexivity|]. set (l := o0 :: outs). clearbody l. induction l as [|x l IH]; cbn; constructor; [split; reflexivity|exact IH]. }
    destruct Ho as [o [Ho Lo]]. rewrite Ho. exists i, o. auto.
Qed.

(** ** Conversion *)
Definition nativize (a : arg) : arg := match aty a with ScalarTensor d => mkArg (aname a) (ScalarNative d) (asrc a) | _ => a end.

Lemma nativize_name a : aname (nativize a) = aname a.
Proof. unfold nativize. destruct (aty a) eqn:E; reflexivity. Qed.
Lemma nativize_type a : public_type (aty (nativize a)) = public_type (aty a).
Proof. unfold nativize. destruct (aty a) eqn:E; cbn; rewrite ?E; reflexivity. Qed.
Lemma nativize_plain a : plain (nativize a).
Proof. intros d. unfold nativize. destruct (aty a) eqn:E; cbn; rewrite ?E; discriminate. Qed.

Lemma convert_list l : forall m, fst (convert l m) = map nativize l.
Proof.
  induction l as [|a l IH]; intros m; [reflexivity|]. cbn [convert map]. unfold nativize at 1.
  destruct (aty a) as [d|d|n|t]; [specialize (IH ((aname a, d) :: m)); destruct (convert l ((aname a, d) :: m))
    | specialize (IH m); destruct (convert l m) ..]; cbn [fst] in *; rewrite IH; reflexivity.
Qed.

Definition scalar_of (a : arg) : option dtype := match aty a with ScalarTensor d => Some d | _ => None end.

Lemma get_cons x d m y : get ((x, d) :: m) y = if String.eqb x y then Some d else get m y.
Proof. unfold get. cbn [find fst]. destruct (String.eqb x y); reflexivity. Qed.

Lemma convert_other l x : forall m, ~ In x (map aname l) -> get (snd (convert l m)) x = get m x.
Proof.
  induction l as [|a l IH]; intros m Hx; [reflexivity|]. cbn [map In] in Hx.
  assert (Hne : String.eqb (aname a) x = false) by (apply String.eqb_neq; tauto).
  cbn [convert]. destruct (aty a) as [d|d|n|t].
  - specialize (IH ((aname a, d) :: m)). destruct (convert l ((aname a, d) :: m)) as [l' m']. cbn [snd] in *.
    rewrite IH by tauto. rewrite get_cons, Hne. reflexivity.
  - specialize (IH m). destruct (convert l m) as [l' m']. cbn [snd] in *. apply IH. tauto.
  - specialize (IH m). destruct (convert l m) as [l' m']. cbn [snd] in *. apply IH. tauto.
  - specialize (IH m). destruct (convert l m) as [l' m']. cbn [snd] in *. apply IH. tauto.
Qed.

Lemma convert_get l : forall m a, NoDup (map aname l) -> (forall b, In b l -> get m (aname b) = None) -> In a l ->
  get (snd (convert l m)) (aname a) = scalar_of a.
Proof.
  induction l as [|b l IH]; intros m a Hnd Hm Ha; [destruct Ha|].
  cbn [map] in Hnd. inversion Hnd as [|? ? Hb Hnd']; subst.
  assert (Hm' : forall d x, In x l -> get ((aname b, d) :: m) (aname x) = None).
  { intros d x Hx. rewrite get_cons. destruct (String.eqb (aname b) (aname x)) eqn:E; [|apply Hm; right; exact Hx].
    apply String.eqb_eq in E. exfalso. apply Hb. rewrite E. apply in_map. exact Hx. }
  assert (Hm2 : forall x, In x l -> get m (aname x) = None) by (intros x Hx; apply Hm; right; exact Hx).
  assert (Hbm : get m (aname b) = None) by (apply Hm; left; reflexivity).
  cbn [convert]. destruct (aty b) as [d|d|n|t] eqn:E.
  - pose proof (IH ((aname b, d) :: m) a Hnd' (Hm' d)) as IH1.
    pose proof (convert_other l (aname b) ((aname b, d) :: m) Hb) as Ho.
    destruct (convert l ((aname b, d) :: m)) as [l' m']. cbn [snd] in *.
    destruct Ha as [<-|Ha]; [|apply IH1; exact Ha]. rewrite Ho, get_cons, String.eqb_refl. unfold scalar_of. rewrite E. reflexivity.
  - pose proof (IH m a Hnd' Hm2) as IH1. pose proof (convert_other l (aname b) m Hb) as Ho.
    destruct (convert l m) as [l' m']. cbn [snd] in *.
    destruct Ha as [<-|Ha]; [|apply IH1; exact Ha]. rewrite Ho, Hbm. unfold scalar_of. rewrite E. reflexivity.
  - pose proof (IH m a Hnd' Hm2) as IH1. pose proof (convert_other l (aname b) m Hb) as Ho.
    destruct (convert l m) as [l' m']. cbn [snd] in *.
    destruct Ha as [<-|Ha]; [|apply IH1; exact Ha]. rewrite Ho, Hbm. unfold scalar_of. rewrite E. reflexivity.
  - pose proof (IH m a Hnd' Hm2) as IH1. pose proof (convert_other l (aname b) m Hb) as Ho.
    destruct (convert l m) as [l' m']. cbn [snd] in *.
    destruct Ha as [<-|Ha]; [|apply IH1; exact Ha]. rewrite Ho, Hbm. unfold scalar_of. rewrite E. reflexivity.
Qed.

(** ** Running the conversions *)
Section Run.
  Context {V W : Type} (up down : dtype -> V -> V).

  (** The statements for the arguments that the map knows. *)
  Lemma wraps_run l (f : string -> option dtype) :
    NoDup (map aname l) ->
    forall e : ienv V W,
    (forall a, In a l -> exists v, e (aname a) = Some v /\ passes (aty a) v) ->
    (forall a, In a l -> f (aname a) = scalar_of a) ->
    exists e', brun up down (flat_map (fun a => match f (aname a) with
                     | Some d => [Wrap (aname a) (if is_float d then KFloat else if is_int d || is_uint d then KInt else KBool) d]
                     | None => [] end) l) e = Some e'
      /\ (forall a v, In a l -> e (aname a) = Some v -> e' (aname a) = Some (inside up (aty a) v))
      /\ (forall x, ~ In x (map aname l) -> e' x = e x).
  Proof.
    induction l as [|a l IH]; intros Hnd e He Hf.
    - exists e. cbn. repeat split; try tauto; reflexivity.
    - cbn [map] in Hnd. inversion Hnd as [|? ? Ha Hnd']; subst. cbn [flat_map].
      destruct (He a (or_introl eq_refl)) as [v [Hv Hp]].
      rewrite (Hf a (or_introl eq_refl)).
      destruct (aty a) as [d|d|n|t] eqn:E; unfold scalar_of; rewrite E.
      2,3,4: cbn [app]; destruct (IH Hnd' e) as [e' [Hr [H1 H2]]];
        [intros b Hb; apply He; right; exact Hb | intros b Hb; apply Hf; right; exact Hb |];
        exists e'; split; [exact Hr|]; split;
        [ intros b w [<-|Hb] Hw; [rewrite (H2 _ Ha), Hw, E; reflexivity|apply H1; assumption]
        | intros x Hx; apply H2; cbn [map In] in Hx; tauto ].
      cbn [app brun brun1]. rewrite Hv. destruct v as [d' v|d' v|w]; cbn in Hp; try contradiction. subst d'.
      rewrite (internal_dtype_dec_lb d d eq_refl).
      set (e1 := put e (aname a) (OnDevice d (up d v))).
      assert (He1 : forall b, In b l -> e1 (aname b) = e (aname b)).
      { intros b Hb. unfold e1, put. destruct (String.eqb (aname a) (aname b)) eqn:Q; [|reflexivity].
        apply String.eqb_eq in Q. exfalso. apply Ha. rewrite Q. apply in_map. exact Hb. }
      destruct (IH Hnd' e1) as [e' [Hr [H1 H2]]].
      { intros b Hb. rewrite (He1 b Hb). apply He. right. exact Hb. }
      { intros b Hb. apply Hf. right. exact Hb. }
      exists e'. split.
      { destruct d; exact Hr. }
      split.
      + intros b w [<-|Hb] Hw.
        * rewrite (H2 _ Ha). unfold e1, put. rewrite String.eqb_refl. rewrite Hv in Hw. injection Hw as <-. rewrite E. reflexivity.
        * apply H1; [exact Hb|]. rewrite (He1 b Hb). exact Hw.
      + intros x Hx. cbn [map In] in Hx. rewrite H2 by tauto. unfold e1, put.
        destruct (String.eqb (aname a) x) eqn:Q; [|reflexivity]. apply String.eqb_eq in Q. tauto.
  Qed.

  Lemma unwraps_run l (f : string -> option dtype) :
    NoDup (map aname l) ->
    forall e : ienv V W,
    (forall a, In a l -> exists v, e (aname a) = Some v /\ computes (aty a) v) ->
    (forall a, In a l -> f (aname a) = scalar_of a) ->
    exists e', brun up down (flat_map (fun a => match f (aname a) with Some d => [Unwrap (aname a) d] | None => [] end) l) e = Some e'
      /\ (forall a v, In a l -> e (aname a) = Some v -> e' (aname a) = Some (outside down (aty a) v))
      /\ (forall x, ~ In x (map aname l) -> e' x = e x).
  Proof.
    induction l as [|a l IH]; intros Hnd e He Hf.
    - exists e. cbn. repeat split; try tauto; reflexivity.
    - cbn [map] in Hnd. inversion Hnd as [|? ? Ha Hnd']; subst. cbn [flat_map].
      destruct (He a (or_introl eq_refl)) as [v [Hv Hp]].
      rewrite (Hf a (or_introl eq_refl)).
      destruct (aty a) as [d|d|n|t] eqn:E; unfold scalar_of; rewrite E.
      2,3,4: cbn [app]; destruct (IH Hnd' e) as [e' [Hr [H1 H2]]];
        [intros b Hb; apply He; right; exact Hb | intros b Hb; apply Hf; right; exact Hb |];
        exists e'; split; [exact Hr|]; split;
        [ intros b w [<-|Hb] Hw; [rewrite (H2 _ Ha), Hw, E; reflexivity|apply H1; assumption]
        | intros x Hx; apply H2; cbn [map In] in Hx; tauto ].
      cbn [app brun brun1]. rewrite Hv. destruct v as [d' v|d' v|w]; cbn in Hp; try contradiction. subst d'.
      set (e1 := put e (aname a) (Native d (down d v))).
      assert (He1 : forall b, In b l -> e1 (aname b) = e (aname b)).
      { intros b Hb. unfold e1, put. destruct (String.eqb (aname a) (aname b)) eqn:Q; [|reflexivity].
        apply String.eqb_eq in Q. exfalso. apply Ha. rewrite Q. apply in_map. exact Hb. }
      destruct (IH Hnd' e1) as [e' [Hr [H1 H2]]].
      { intros b Hb. rewrite (He1 b Hb). apply He. right. exact Hb. }
      { intros b Hb. apply Hf. right. exact Hb. }
      exists e'. split; [exact Hr|]. split.
      + intros b w [<-|Hb] Hw.
        * rewrite (H2 _ Ha). unfold e1, put. rewrite String.eqb_refl. rewrite Hv in Hw. injection Hw as <-. rewrite E. reflexivity.
        * apply H1; [exact Hb|]. rewrite (He1 b Hb). exact Hw.
      + intros x Hx. cbn [map In] in Hx. rewrite H2 by tauto. unfold e1, put.
        destruct (String.eqb (aname a) x) eqn:Q; [|reflexivity]. apply String.eqb_eq in Q. tauto.
  Qed.
End Run.

Lemma flat_map_map {A B C} (f : A -> B) (g : B -> list C) l : flat_map g (map f l) = flat_map (fun a => g (f a)) l.
Proof. induction l; cbn; congruence. Qed.

Lemma like_names i l : Forall2 like i l -> map aname i = map aname l.
Proof. induction 1 as [|a b i l [H1 H2] _ IH]; cbn; congruence. Qed.
Lemma like_types i l : Forall2 like i l -> map aty i = map aty l.
Proof. induction 1 as [|a b i l [H1 H2] _ IH]; cbn; congruence. Qed.

Lemma bind_get {V W} xs : forall (vs : list (rval V W)) i x v, NoDup xs ->
  nth_error xs i = Some x -> nth_error vs i = Some v -> bind xs vs x = Some v.
Proof.
  induction xs as [|y xs IH]; intros vs i x v Hnd Hx Hv; [destruct i; discriminate|].
  inversion Hnd as [|? ? Hy Hnd']; subst. destruct i as [|i]; destruct vs as [|w vs]; try discriminate.
  - cbn in Hx, Hv. injection Hx as <-. injection Hv as <-. cbn [bind]. unfold put. rewrite String.eqb_refl. reflexivity.
  - cbn [nth_error] in Hx, Hv. cbn [bind]. unfold put. destruct (String.eqb y x) eqn:E; [|eapply IH; eauto].
    apply String.eqb_eq in E. subst. exfalso. apply Hy. eapply nth_error_In; eauto.
Qed.
