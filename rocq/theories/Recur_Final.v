(** RNN, GRU and LSTM: what the emitted statement gives. *)
From Coq Require Import Lia ZifyBool ZifyNat ZifyN.
From Verif Require Export Recur_Outputs.
From Verif Require Import Tensor_Proofs Lines_Proofs Index_Model Linear_Model Linear_Proofs.
Import Recur_Spec Tensor_Spec.
Local Open Scope N_scope.

Section Final.
  Context {T : Type} (add mul : T -> T -> T) (zero : T) (minus1 : T -> T) (act : activation -> T -> T).
  Hypothesis add_assoc : forall a b c, add a (add b c) = add (add a b) c.
  Hypothesis add_comm : forall a b, add a b = add b a.
  Hypothesis add_zero : forall a, add a zero = a.
  Notation vec := (N -> T).

  (** ** Initial states *)
  Definition state_expr (bi : bool) (a : arg) : rex := if bi then XIn (aname a) else XSqueeze0 (XIn (aname a)).
  Lemma state_eval e dir a (t : tensor T) batch H : e (aname a) = Some t -> twf t -> tshape t = [directions dir; batch; H] ->
    exists z, xeval e None (state_expr (bidirectional dir) a) = Some z /\
      tshape z = (if bidirectional dir then [2; batch; H] else [batch; H]) /\
      forall d b j, d < directions dir -> at_ zero z ((if bidirectional dir then [d; b] else [b]) ++ [j]) = at_ zero t [d; b; j].
  Proof.
    intros He Hw Hs. unfold state_expr. destruct dir; cbn [bidirectional directions] in *.
    - cbn [xeval]. rewrite He. cbn [obind]. destruct (squeeze0_ok t _ _ Hw Hs) as (z & Ez & Wz & Sz & Gz). exists z. split; [exact Ez|]. split; [exact Sz|].
      intros d b j Hd. replace d with 0 by lia. cbn [app]. apply at_eq. apply Gz.
    - cbn [xeval]. rewrite He. cbn [obind]. destruct (squeeze0_ok t _ _ Hw Hs) as (z & Ez & Wz & Sz & Gz). exists z. split; [exact Ez|]. split; [exact Sz|].
      intros d b j Hd. replace d with 0 by lia. cbn [app]. apply at_eq. apply Gz.
    - exists t. split; [exact He|]. split; [exact Hs|]. reflexivity.
  Qed.

  (** ** Outputs *)
  Section Outs.
    Context {S : Type}.
    Variables (sp : N -> vec -> S -> S) (ph pc : S -> vec) (s0 : N -> N -> S) (e : string -> option (tensor T)).
    Variables (X : tensor T) (len batch I H : N).
    Definition xs (layout : bool) (b t : N) : vec := fun i => at_ zero X (shape3 layout t b i).
    Lemma uni_outputs dir y h c : bidirectional dir = false -> tshape X = [len; batch; I] ->
      (twf y /\ tshape y = [len; batch; H] /\ twf h /\ tshape h = [batch; H] /\ twf c /\ tshape c = [batch; H]) ->
      (forall t b j, t < len -> b < batch -> j < H -> get y [t; b; j] = Some (ph (after (sp 0) (xs false b) len (backwards dir 0) (s0 0 b) (steps_at len (backwards dir 0) t)) j)) ->
      (forall b j, b < batch -> j < H -> get h [b; j] = Some (ph (after (sp 0) (xs false b) len (backwards dir 0) (s0 0 b) (N.to_nat len)) j)) ->
      (forall b j, b < batch -> j < H -> get c [b; j] = Some (pc (after (sp 0) (xs false b) len (backwards dir 0) (s0 0 b) (N.to_nat len)) j)) ->
      exists Y Yh Yc, xeval e (Some (y, h, c)) (XUnsqueeze 1 XSeq) = Some Y /\ xeval e (Some (y, h, c)) (XUnsqueeze 0 XHidden) = Some Yh /\
        xeval e (Some (y, h, c)) (XUnsqueeze 0 XCell) = Some Yc /\
        outputs_all zero false sp s0 ph dir H X Y /\ outputs_last zero false sp s0 ph dir H X Yh /\ outputs_last zero false sp s0 pc dir H X Yc.
    Proof.
      intros Hd HX (Wy & Sy & Wh & Sh & Wc & Sc) Gy Gh Gc.
      assert (D1 : directions dir = 1) by (destruct dir; try discriminate; reflexivity).
      destruct (unsq3_ok y _ _ _ 1 Wy Sy ltac:(lia)) as (Y & EY & WY & SY & GY).
      destruct (unsq2_ok h _ _ Wh Sh) as (Yh & EYh & WYh & SYh & GYh). destruct (unsq2_ok c _ _ Wc Sc) as (Yc & EYc & WYc & SYc & GYc).
      exists Y, Yh, Yc. cbn [xeval option_map obind fst snd]. split; [exact EY|]. split; [exact EYh|]. split; [exact EYc|].
      split; [|split]; exists len, batch, I; (split; [exact HX|]); (split; [assumption|]); rewrite D1.
      - split; [exact SY|]. intros t d b j Ht Hd' Hb Hj. replace d with 0 by lia. cbn [shape4]. exact (eq_trans (GY t b j) (Gy t b j Ht Hb Hj)).
      - split; [exact SYh|]. intros d b j Hd' Hb Hj. replace d with 0 by lia. cbn [shape3]. rewrite (GYh b j). apply Gh; assumption.
      - split; [exact SYc|]. intros d b j Hd' Hb Hj. replace d with 0 by lia. cbn [shape3]. rewrite (GYc b j). apply Gc; assumption.
    Qed.
    Lemma bi_outputs layout y h c : tshape X = shape3 layout len batch I ->
      (twf y /\ tshape y = shape3 layout len batch (2 * H) /\ twf h /\ tshape h = [2; batch; H] /\ twf c /\ tshape c = [2; batch; H]) ->
      (forall t d b j, t < len -> d < 2 -> b < batch -> j < H ->
         get y (shape3 layout t b (d * H + j)) = Some (ph (after (sp d) (xs layout b) len (d =? 1) (s0 d b) (steps_at len (d =? 1) t)) j)) ->
      (forall d b j, d < 2 -> b < batch -> j < H -> get h [d; b; j] = Some (ph (after (sp d) (xs layout b) len (d =? 1) (s0 d b) (N.to_nat len)) j)) ->
      (forall d b j, d < 2 -> b < batch -> j < H -> get c [d; b; j] = Some (pc (after (sp d) (xs layout b) len (d =? 1) (s0 d b) (N.to_nat len)) j)) ->
      exists Y, xeval e (Some (y, h, c)) (if layout then XSplit H XSeq else XSwap 1 2 (XSplit H XSeq)) = Some Y /\
        outputs_all zero layout sp s0 ph Bidirectional H X Y /\
        (layout = false -> outputs_last zero layout sp s0 ph Bidirectional H X h /\ outputs_last zero layout sp s0 pc Bidirectional H X c).
    Proof.
      intros HX (Wy & Sy & Wh & Sh & Wc & Sc) Gy Gh Gc. destruct layout; cbn [shape3] in *.
      - destruct (split_ok y _ _ H Wy Sy) as (Y & EY & WY & SY & GY). exists Y. cbn [xeval option_map obind fst snd]. split; [exact EY|]. split; [|discriminate].
        exists len, batch, I. split; [exact HX|]. split; [exact WY|]. split; [exact SY|]. intros t d b j Ht Hd Hb Hj. cbn [shape4 directions backwards] in *.
        rewrite (GY b t d j). apply Gy; assumption.
      - destruct (split_ok y _ _ H Wy Sy) as (Z & EZ & WZ & SZ & GZ). destruct (swap12_ok Z _ _ _ _ WZ SZ) as (Y & EY & WY & SY & GY).
        exists Y. cbn [xeval option_map obind fst snd]. rewrite EZ. cbn [obind]. split; [exact EY|]. split.
        + exists len, batch, I. split; [exact HX|]. split; [exact WY|]. split; [exact SY|]. intros t d b j Ht Hd Hb Hj. cbn [shape4 directions backwards] in *.
          rewrite (GY t b d j) by assumption. rewrite GZ. apply Gy; assumption.
        + intros _. split; exists len, batch, I; (split; [exact HX|]); (split; [assumption|]); (split; [assumption|]); intros d b j Hd Hb Hj; cbn [shape3 directions backwards] in *; [apply Gh|apply Gc]; assumption.
    Qed.
    (** GRU in one direction: the module runs batch first and forwards. *)
    Lemma after_flipped (x x' : N -> vec) s : (forall t, x' t = x (len - 1 - t)) -> forall k, after (sp 0) x' len false s k = after (sp 0) x len true s k.
    Proof. intros E. induction k as [|k IH]; [reflexivity|]. cbn [after]. rewrite E, IH. reflexivity. Qed.
    Lemma gru_outputs layout dir y h c : bidirectional dir = false -> 0 < len -> tshape X = shape3 layout len batch I ->
      (twf y /\ tshape y = [batch; len; H]) ->
      (forall t b j, t < len -> b < batch -> j < H ->
         get y [b; t; j] = Some (ph (after (sp 0) (xs layout b) len (backwards dir 0) (s0 0 b) (N.to_nat (t + 1))) j)) ->
      let out := if backwards dir 0 then XFlip1 XSeq else XSeq in
      exists Y Yh, xeval e (Some (y, h, c)) (if layout then XUnsqueeze 2 out else XUnsqueeze 1 (XSwap 0 1 out)) = Some Y /\
        xeval e (Some (y, h, c)) (XUnsqueeze 0 (XStep (negb (backwards dir 0)) out)) = Some Yh /\
        outputs_all zero layout sp s0 ph dir H X Y /\ (layout = false -> outputs_last zero layout sp s0 ph dir H X Yh).
    Proof.
      intros Hd Hlen HX (Wy & Sy) Gy out.
      assert (D1 : directions dir = 1) by (destruct dir; try discriminate; reflexivity).
      assert (O : exists z, xeval e (Some (y, h, c)) out = Some z /\ twf z /\ tshape z = [batch; len; H] /\
        forall t b j, t < len -> b < batch -> j < H ->
          get z [b; t; j] = Some (ph (after (sp 0) (xs layout b) len (backwards dir 0) (s0 0 b) (steps_at len (backwards dir 0) t)) j)).
      { unfold out. destruct (backwards dir 0) eqn:Eb.
        - destruct (flip1_ok y _ _ _ Wy Sy) as (z & Ez & Wz & Sz & Gz). exists z. cbn [xeval option_map obind fst snd]. split; [exact Ez|]. split; [exact Wz|]. split; [exact Sz|].
          intros t b j Ht Hb Hj. rewrite Gz by assumption. rewrite Gy by lia. unfold steps_at. do 3 f_equal. lia.
        - exists y. split; [reflexivity|]. split; [exact Wy|]. split; [exact Sy|]. intros t b j Ht Hb Hj. rewrite Gy by assumption. reflexivity. }
      destruct O as (z & Ez & Wz & Sz & Gz). clearbody out. clear Gy.
      destruct (step_ok z _ _ _ (negb (backwards dir 0)) Wz Sz Hlen) as (s & Es & Ws & Ss & Gs). destruct (unsq2_ok s _ _ Ws Ss) as (Yh & EYh & WYh & SYh & GYh).
      assert (Last : layout = false -> outputs_last zero layout sp s0 ph dir H X Yh).
      { intros ->. exists len, batch, I. split; [exact HX|]. split; [exact WYh|]. rewrite D1. split; [exact SYh|].
        intros d b j Hd' Hb Hj. replace d with 0 by lia. cbn [shape3]. rewrite GYh, Gs by assumption. rewrite Gz by (destruct (backwards dir 0); cbn [negb]; lia).
        unfold steps_at. do 3 f_equal. destruct (backwards dir 0); cbn [negb]; lia. }
      destruct layout; cbn [shape3] in *.
      - destruct (unsq3_ok z _ _ _ 2 Wz Sz ltac:(lia)) as (Y & EY & WY & SY & GY). exists Y, Yh. cbn [xeval]. rewrite Ez. cbn [obind]. rewrite Es. cbn [obind].
        split; [exact EY|]. split; [exact EYh|]. split; [|exact Last].
        exists len, batch, I. split; [exact HX|]. split; [exact WY|]. rewrite D1. split; [exact SY|]. intros t d b j Ht Hd' Hb Hj. replace d with 0 by lia. cbn [shape4].
        exact (eq_trans (GY b t j) (Gz t b j Ht Hb Hj)).
      - destruct (swap01_ok z _ _ _ Wz Sz) as (v & Ev & Wv & Sv & Gv). destruct (unsq3_ok v _ _ _ 1 Wv Sv ltac:(lia)) as (Y & EY & WY & SY & GY).
        exists Y, Yh. cbn [xeval]. rewrite Ez. cbn [obind]. rewrite Es, Ev. cbn [obind]. split; [exact EY|]. split; [exact EYh|]. split; [|exact Last].
        exists len, batch, I. split; [exact HX|]. split; [exact WY|]. rewrite D1. split; [exact SY|]. intros t d b j Ht Hd' Hb Hj. replace d with 0 by lia. cbn [shape4].
        exact (eq_trans (GY t b j) (eq_trans (Gv b t j ltac:(assumption) ltac:(assumption) ltac:(assumption)) (Gz t b j Ht Hb Hj))).
    Qed.
    (** The input the module is given. *)
    Lemma gru_input layout dir x : bidirectional dir = false -> e x = Some X -> twf X -> tshape X = shape3 layout len batch I ->
      let inp := if layout then XIn x else XSwap 0 1 (XIn x) in
      exists Z, xeval e None (if backwards dir 0 then XFlip1 inp else inp) = Some Z /\ tshape Z = [batch; len; I] /\
        forall b t i, b < batch -> t < len -> i < I -> at_ zero Z [b; t; i] = xs layout b (if backwards dir 0 then len - 1 - t else t) i.
    Proof.
      intros Hd He WX SX inp.
      assert (P : exists Z, xeval e None inp = Some Z /\ twf Z /\ tshape Z = [batch; len; I] /\ forall b t i, b < batch -> t < len -> i < I -> at_ zero Z [b; t; i] = xs layout b t i).
      { unfold inp. destruct layout; cbn [shape3] in *.
        - exists X. split; [exact He|]. split; [exact WX|]. split; [exact SX|]. intros; reflexivity.
        - destruct (swap01_ok X _ _ _ WX SX) as (Z & EZ & WZ & SZ & GZ). exists Z. cbn [xeval]. rewrite He. split; [exact EZ|]. split; [exact WZ|]. split; [exact SZ|].
          intros b t i Hb Ht Hi. apply at_eq. apply GZ; assumption. }
      destruct P as (Z & EZ & WZ & SZ & GZ). clearbody inp. destruct (backwards dir 0).
      - destruct (flip1_ok Z _ _ _ WZ SZ) as (F & EF & WF & SF & GF). exists F. cbn [xeval]. rewrite EZ. split; [exact EF|]. split; [exact SF|].
        intros b t i Hb Ht Hi. rewrite <- GZ by lia. apply at_eq. apply GF; assumption.
      - exists Z. split; [exact EZ|]. split; [exact SZ|]. exact GZ.
    Qed.
  End Outs.

  (** ** Names *)
  Lemma sget_named (names : list string) (vs : list (tensor T)) : forall i nm v, (forall j, nth_error names j = Some nm -> j = i) ->
    nth_error names i = Some nm -> nth_error vs i = Some v -> sget (combine names vs) nm = Some v.
  Proof.
    revert vs. induction names as [|a names IH]; intros vs i nm v Hu Hn Hv; [destruct i; discriminate|].
    destruct vs as [|u vs]; [destruct i; discriminate|]. cbn [combine sget]. destruct i as [|i].
    - cbn in Hn, Hv. injection Hn as ->. injection Hv as ->. rewrite String.eqb_refl. reflexivity.
    - destruct (String.eqb_spec a nm) as [->|Hne]; [specialize (Hu 0%nat eq_refl); discriminate|].
      cbn in Hn, Hv. apply (IH vs i nm v); [|exact Hn|exact Hv]. intros j Hj. specialize (Hu (Datatypes.S j) Hj). lia.
  Qed.
  Lemma outs_eval e o (names : list string) (xs : list rex) (vs : list (tensor T)) : Forall2 (fun x v => xeval e o x = Some v) xs vs ->
    mapo (fun p => option_map (pair (fst p)) (xeval e o (snd p))) (combine names xs) = Some (combine names vs).
  Proof.
    intros F. revert names. induction F as [|x v xs' vs' Hx F IH]; intros names; [destruct names; reflexivity|].
    destruct names as [|a names]; [reflexivity|]. cbn [combine mapo fst snd]. rewrite Hx, IH. reflexivity.
  Qed.
  Definition kept {A} (o : string * A) : bool := negb (String.eqb (fst o) "").
  Lemma outs_eval_kept e o (names : list string) (xs : list rex) (vs : list (tensor T)) : Forall2 (fun x v => xeval e o x = Some v) xs vs ->
    mapo (fun p => option_map (pair (fst p)) (xeval e o (snd p))) (filter kept (combine names xs)) = Some (filter kept (combine names vs)).
  Proof.
    intros F. revert names. induction F as [|x v xs' vs' Hx F IH]; intros names; [destruct names; reflexivity|].
    destruct names as [|a names]; [reflexivity|]. cbn [combine filter]. change (kept (a, x)) with (negb (String.eqb a "")). change (kept (a, v)) with (negb (String.eqb a "")). destruct (String.eqb a ""); cbn [negb]; [apply IH|].
    cbn [mapo fst snd]. rewrite Hx, IH. reflexivity.
  Qed.
  Lemma sget_kept (l : list (string * tensor T)) nm : nm <> ""%string -> sget (filter kept l) nm = sget l nm.
  Proof.
    intros Hn. induction l as [|[a t] l IH]; [reflexivity|]. cbn [filter]. change (kept (a, t)) with (negb (String.eqb a "")). destruct (String.eqb_spec a "") as [->|Ha]; cbn [negb].
    - cbn [sget]. destruct (String.eqb_spec "" nm) as [E|]; [congruence|exact IH].
    - cbn [sget]. destruct (String.eqb a nm); [reflexivity|exact IH].
  Qed.
  Lemma unique_name n i a : distinct_outputs n -> nth_error (noutputs n) i = Some a -> aname a <> ""%string ->
    (forall j, nth_error (map aname (noutputs n)) j = Some (aname a) -> j = i) /\ nth_error (map aname (noutputs n)) i = Some (aname a).
  Proof.
    intros Hd Hi Hn. split; [|rewrite nth_error_map, Hi; reflexivity]. intros j Hj. rewrite nth_error_map in Hj.
    destruct (nth_error (noutputs n) j) as [b|] eqn:Eb; [|discriminate]. cbn in Hj. injection Hj as Hj. symmetry. apply (Hd i j a b Hi Eb); [congruence|exact Hn].
  Qed.

  (** ** Initial states of a node *)
  Definition start (dir : direction) (d : N) : N -> list N := if bidirectional dir then fun b => [d; b] else fun b => [b].
  Lemma start_app dir d b j : start dir d b ++ [j] = (if bidirectional dir then [d; b] else [b]) ++ [j].
  Proof. unfold start. destruct (bidirectional dir); reflexivity. Qed.
  Definition init_shape (dir : direction) (batch H : N) : list N := if bidirectional dir then [2; batch; H] else [batch; H].
  Lemma one_state e n i layout dir (t : option (tensor T)) batch H : optional_input (fun a => e (aname a)) n i 3 t -> initial_ok layout t (directions dir) batch H ->
    (layout = false \/ t = None) ->
    match t with
    | None => has_input n i = false
    | Some v => exists a z, has_input n i = true /\ nth_error (ninputs n) i = Some a /\ xeval e None (state_expr (bidirectional dir) a) = Some z /\
        eqs (tshape z) (init_shape dir batch H) = true /\
        forall d b j, d < directions dir -> at_ zero z (start dir d b ++ [j]) = initial zero layout t d b j
    end.
  Proof.
    intros Ho Hi Hl. pose proof (has_optional _ _ _ _ _ Ho) as Hh. destruct t as [v|]; [|exact Hh]. destruct Hl as [->|E]; [|discriminate].
    destruct (Hi v eq_refl) as [Wv Sv]. unfold optional_input, given in Ho. destruct (nth_error (ninputs n) i) as [a|] eqn:Ea; [|discriminate].
    destruct (is_optional a) eqn:Eo; [discriminate|]. destruct Ho as (t' & Et & He & _). assert (t' = v) by congruence. subst t'.
    destruct (state_eval e dir a v batch H He Wv Sv) as (z & Ez & Sz & Gz). exists a, z. split; [exact Hh|]. split; [reflexivity|]. split; [exact Ez|]. split.
    - rewrite Sz. unfold init_shape. destruct (bidirectional dir); apply eqs_refl.
    - intros d b j Hd. rewrite start_app. rewrite Gz by exact Hd. reflexivity.
  Qed.

  (** ** The module of a node *)
  Section Node.
    Context {S : Type}.
    Variables (k : rkind) (sp : N -> vec -> S -> S) (ph pc : S -> vec) (s0 : N -> N -> S).
    Variables (value : arg -> option (tensor T)) (e : string -> option (tensor T)) (n : rnode) (layout : bool) (dir : direction) (len batch : N)
      (X : tensor T) (w : @weights T) (h0 : option (tensor T)) (c : rconfig) (m : rmodule) (field : string) (init : list (tensor T)).
    Hypothesis Hin : recurrent_inputs value e n layout dir len batch X w h0.
    Hypothesis Hg : gates w = gate_count k.
    Hypothesis Cd : rc_dir c = dir.
    Hypothesis Ch : rc_hidden c = hidden w.
    Hypothesis Ci : rc_input c = input w.
    Hypothesis HI : input w <> 1.
    Hypothesis HH : hidden w <> 1.
    Hypothesis Mi : m_in m = input w.
    Hypothesis Mh : m_hid m = hidden w.
    Hypothesis Mc : m_clip m = false.
    Hypothesis Mb : m_bi m = bidirectional dir.
    Hypothesis cells : forall l dp d, gates_found add mul zero k w l dp d ->
      exists st, load_cell add mul zero minus1 act k m (stored field l) (field ++ "." ++ dp) = Some st /\ follows (input w) (hidden w) st (sp d) ph pc.
    Hypothesis Is : forallb (fun t => eqs (tshape t) (init_shape dir batch (hidden w))) init = true.
    Hypothesis Ir : forall d b, d < directions dir -> b < batch -> rel (hidden w) ph pc (state_of zero init (start dir d) b) (s0 d b).

    Lemma snaps_found : exists l, snapshots add zero value k c n field = Some (stored field l) /\
      (if bidirectional dir then gates_found add mul zero k w l "forward." 0 /\ gates_found add mul zero k w l "reverse." 1 else gates_found add mul zero k w l "" 0).
    Proof. rewrite <- Cd. apply (snapshots_ok add mul zero add_assoc add_comm add_zero value k c n field w e layout len batch X h0); try assumption. rewrite Cd. exact Hin. Qed.

    (** A module that is given [X] as it is. *)
    Lemma same_input snaps : m_batch_first m = layout -> (bidirectional dir = false -> m_reverse m = backwards dir 0) ->
      snapshots add zero value k c n field = Some snaps -> (layout = false \/ bidirectional dir = true) ->
      exists o Y Yh Yc, module_run add mul zero minus1 act k m snaps field X init = Some o /\
        xeval e (Some o) (if bidirectional dir then (if layout then XSplit (hidden w) XSeq else XSwap 1 2 (XSplit (hidden w) XSeq)) else XUnsqueeze 1 XSeq) = Some Y /\
        xeval e (Some o) (if bidirectional dir then XHidden else XUnsqueeze 0 XHidden) = Some Yh /\
        xeval e (Some o) (if bidirectional dir then XCell else XUnsqueeze 0 XCell) = Some Yc /\
        outputs_all zero layout sp s0 ph dir (hidden w) X Y /\
        (layout = false -> outputs_last zero layout sp s0 ph dir (hidden w) X Yh /\ outputs_last zero layout sp s0 pc dir (hidden w) X Yc).
    Proof.
      intros Ml Mr Hs Hl. destruct snaps_found as (l & El & Fl). rewrite El in Hs. assert (snaps = stored field l) by congruence. subst snaps. clear Hs.
      destruct Hin as (_ & WX & SX & _).
      assert (Hx : forall b t, b < batch -> t < len -> agree (input w) (fun i => at_ zero X (shape3 (m_batch_first m) t b i)) (xs X layout b t)).
      { intros b t _ _ i _. rewrite Ml. reflexivity. }
      rewrite <- Ml in SX.
      destruct (bidirectional dir) eqn:Eb.
      - assert (Ed : dir = Bidirectional) by (destruct dir; try discriminate; reflexivity).
        destruct Fl as [Ff Fr]. destruct (cells l "forward." 0 Ff) as (sf & Lf & Pf). destruct (cells l "reverse." 1 Fr) as (sr & Lr & Pr).
        assert (Is' : forallb (fun t => eqs (tshape t) [2; batch; hidden w]) init = true) by (unfold init_shape in Is; rewrite Eb in Is; exact Is).
        destruct (bi_run add mul zero minus1 act add_assoc add_comm add_zero k m (stored field l) field w sp ph pc s0 X init len batch (xs X layout) Mi Mh Mc SX Hx sf sr Mb Is' Lf Pf Lr Pr)
          as (y & h & cc & ER & Sh & Gy & Gh & Gc).
        { intros d b Hd Hb. specialize (Ir d b). unfold start in Ir. rewrite Eb in Ir. apply Ir; [rewrite Ed; exact Hd|exact Hb]. }
        rewrite Ml in *. destruct (bi_outputs sp ph pc s0 e X len batch (input w) (hidden w) layout y h cc SX Sh Gy Gh Gc) as (Y & EY & OY & OL).
        exists (y, h, cc), Y, h, cc. split; [exact ER|]. split; [exact EY|]. split; [reflexivity|]. split; [reflexivity|]. rewrite Ed. split; [exact OY|exact OL].
      - destruct Hl as [Hl|Hl]; [|congruence].
        destruct (cells l ""%string 0 Fl) as (st & Lf & Pf).
        assert (Is' : forallb (fun t => eqs (tshape t) [batch; hidden w]) init = true) by (unfold init_shape in Is; rewrite Eb in Is; exact Is).
        destruct (uni_run add mul zero minus1 act k m (stored field l) field w sp ph pc s0 X init len batch (xs X layout) Mi Mh Mc SX Hx st Mb Is' Lf Pf)
          as (y & h & cc & ER & Sh & Gy & Gh & Gc).
        { intros b Hb. specialize (Ir 0 b). unfold start in Ir. rewrite Eb in Ir. apply Ir; [destruct dir; cbn; lia|exact Hb]. }
        rewrite Ml in *. rewrite (Mr eq_refl) in *. subst layout. rewrite Hl in *. cbn [shape3] in *.
        destruct (uni_outputs sp ph pc s0 e X len batch (input w) (hidden w) dir y h cc Eb SX Sh Gy Gh Gc) as (Y & Yh & Yc & E1 & E2 & E3 & O1 & O2 & O3).
        exists (y, h, cc), Y, Yh, Yc. split; [exact ER|]. split; [exact E1|]. split; [exact E2|]. split; [exact E3|]. split; [exact O1|]. intros _. split; assumption.
    Qed.
    (** GRU in one direction. *)
    Lemma batch_first_input snaps Z : bidirectional dir = false -> 0 < len -> m_batch_first m = true -> m_reverse m = false ->
      snapshots add zero value k c n field = Some snaps -> tshape Z = [batch; len; input w] ->
      (forall b t i, b < batch -> t < len -> i < input w -> at_ zero Z [b; t; i] = xs X layout b (if backwards dir 0 then len - 1 - t else t) i) ->
      let out := if backwards dir 0 then XFlip1 XSeq else XSeq in
      exists o Y Yh, module_run add mul zero minus1 act k m snaps field Z init = Some o /\
        xeval e (Some o) (if layout then XUnsqueeze 2 out else XUnsqueeze 1 (XSwap 0 1 out)) = Some Y /\
        xeval e (Some o) (XUnsqueeze 0 (XStep (negb (backwards dir 0)) out)) = Some Yh /\
        outputs_all zero layout sp s0 ph dir (hidden w) X Y /\ (layout = false -> outputs_last zero layout sp s0 ph dir (hidden w) X Yh).
    Proof.
      intros Eb Hlen Ml Mr Hs SZ GZ out. destruct snaps_found as (l & El & Fl). rewrite El in Hs. assert (snaps = stored field l) by congruence. subst snaps. clear Hs.
      destruct Hin as (_ & WX & SX & _). rewrite Eb in Fl. destruct (cells l ""%string 0 Fl) as (st & Lf & Pf).
      assert (Is' : forallb (fun t => eqs (tshape t) [batch; hidden w]) init = true) by (unfold init_shape in Is; rewrite Eb in Is; exact Is).
      set (x := fun b t => xs X layout b (if backwards dir 0 then len - 1 - t else t)).
      assert (Hx : forall b t, b < batch -> t < len -> agree (input w) (fun i => at_ zero Z (shape3 (m_batch_first m) t b i)) (x b t)).
      { intros b t Hb Ht i Hi. rewrite Ml. cbn [shape3]. apply GZ; assumption. }
      assert (SZ' : tshape Z = shape3 (m_batch_first m) len batch (input w)) by (rewrite Ml; exact SZ).
      destruct (uni_run add mul zero minus1 act k m (stored field l) field w sp ph pc s0 Z init len batch x Mi Mh Mc SZ' Hx st (eq_trans Mb Eb) Is' Lf Pf)
        as (y & h & cc & ER & Sh & Gy & _ & _).
      { intros b Hb. specialize (Ir 0 b). unfold start in Ir. rewrite Eb in Ir. apply Ir; [destruct dir; cbn; lia|exact Hb]. }
      rewrite Ml, Mr in *. cbn [shape3] in *.
      assert (Gy' : forall t b j, t < len -> b < batch -> j < hidden w ->
         get y [b; t; j] = Some (ph (after (sp 0) (xs X layout b) len (backwards dir 0) (s0 0 b) (N.to_nat (t + 1))) j)).
      { intros t b j Ht Hb Hj. rewrite Gy by assumption. unfold steps_at. unfold x. destruct (backwards dir 0); [|reflexivity].
        apply (f_equal (fun s => Some (ph s j))). apply after_flipped. reflexivity. }
      destruct (gru_outputs sp ph pc s0 e X len batch (input w) (hidden w) layout dir y h cc Eb Hlen SX (conj (proj1 Sh) (proj1 (proj2 Sh))) Gy') as (Y & Yh & E1 & E2 & O1 & O2).
      exists (y, h, cc), Y, Yh. split; [exact ER|]. split; [exact E1|]. split; [exact E2|]. split; [exact O1|exact O2].
    Qed.
  End Node.

  (** ** Types *)
  Lemma infer_ok k value e n layout dir len batch X (w : @weights T) h0 c0 c : recurrent_inputs value e n layout dir len batch X w h0 ->
    recur_config value k n = IOk c -> rc_peephole c = false -> (k = KLstm -> optional_input (fun a => e (aname a)) n 6 3 c0) ->
    exists x tx, nth_error (ninputs n) 0 = Some x /\ aty x = TensorT tx /\
      infer_recur value k n = IOk (firstn (length (noutputs n)) (TensorT (mkTT (tt_dtype tx) 4 None) :: repeat (TensorT (mkTT (tt_dtype tx) 3 None)) (match k with KLstm => 2%nat | _ => 1%nat end))).
  Proof.
    intros Hin Hc Hp H6. pose proof Hin as ((x & aw & ar & rest & Ei & _ & Tx & _ & Tw & _ & Tr) & _ & _ & _ & H3 & H4 & H5 & _).
    assert (N0 : nth_error (ninputs n) 0 = Some x) by (rewrite Ei; reflexivity).
    assert (N1 : nth_error (ninputs n) 1 = Some aw) by (rewrite Ei; reflexivity).
    assert (N2 : nth_error (ninputs n) 2 = Some ar) by (rewrite Ei; reflexivity).
    destruct (rank3_ok n 0 x X N0 Tx) as (tx & Ex & R0). destruct (rank3_ok n 1 aw _ N1 Tw) as (tw & _ & R1). destruct (rank3_ok n 2 ar _ N2 Tr) as (tr & _ & R2).
    exists x, tx. split; [exact N0|]. split; [exact Ex|]. unfold infer_recur. rewrite R0, R1, R2. cbn [ibind].
    rewrite (optional_rank_ok _ _ _ _ _ H3), (optional_rank_ok _ _ _ _ _ H5). cbn [ibind].
    replace (match k with KLstm => optional_rank n 6 3 | _ => IOk tt end) with (@IOk unit tt) by (destruct k; try reflexivity; rewrite (optional_rank_ok _ _ _ _ _ (H6 eq_refl)); reflexivity).
    cbn [ibind]. rewrite Hc. cbn [ibind]. rewrite Hp. replace (has_input n 4) with false by (unfold has_input, given in *; destruct (nth_error (ninputs n) 4) as [a|]; [destruct (is_optional a); [reflexivity|discriminate]|reflexivity]).
    destruct k; reflexivity.
  Qed.

  (** ** The three operators *)
  Definition plain (s : vec) : vec := s.
  Lemma zero_state dir d b (s : vec) H : (forall j, s j = zero) -> rel H (fun v : vec => v) (fun v : vec => v) (state_of zero [] (start dir d) b) s.
  Proof. intros E. split; intros j _; cbn; symmetry; apply E. Qed.
  Lemma no_name (l : list (string * rex)) : (forall p, In p l -> fst p <> ""%string) -> existsb (fun o => String.eqb (fst o) "") l = false.
  Proof.
    intros Hl. destruct (existsb _ l) eqn:E; [|reflexivity]. apply existsb_exists in E as (p & Hp & Ep). apply String.eqb_eq in Ep. destruct (Hl p Hp Ep).
  Qed.
  Lemma names_in n (xs : list rex) : (forall o, In o (noutputs n) -> aname o <> ""%string) -> forall p, In p (combine (map aname (noutputs n)) xs) -> fst p <> ""%string.
  Proof.
    intros H [a x] Hp. apply in_combine_l in Hp. cbn [fst]. apply in_map_iff in Hp as (o & <- & Ho). apply H. exact Ho.
  Qed.
  Lemma find_out n (vs : list (tensor T)) i o v : distinct_outputs n -> nth_error (noutputs n) i = Some o -> aname o <> ""%string -> nth_error vs i = Some v ->
    sget (combine (map aname (noutputs n)) vs) (aname o) = Some v.
  Proof. intros Hd Ho Hn Hv. destruct (unique_name n i o Hd Ho Hn) as [U Ni]. exact (sget_named _ _ i _ _ U Ni Hv). Qed.

  Definition state_arg (c : rconfig) (n : rnode) (i : nat) : option rex :=
    match nth_error (ninputs n) i with Some a => Some (state_expr (bidirectional (rc_dir c)) a) | None => None end.
  Lemma module_forward (lstm : bool) c n x rest ini : ninputs n = x :: rest ->
    (if lstm then (if rc_h0 c && rc_c0 c then match state_arg c n 6, state_arg c n 5 with Some c0, Some h0 => Some [c0; h0] | _, _ => None end else Some [])
     else (if rc_h0 c then option_map (fun s => [s]) (state_arg c n 5) else Some [])) = Some ini ->
    (forall o, In o (noutputs n) -> aname o <> ""%string) ->
    gen_module_forward lstm c n = Some (mkCode (XIn (aname x)) ini (combine (map aname (noutputs n))
      (let bi := bidirectional (rc_dir c) in
       let y := if bi then (if rc_batch_first c then XSplit (rc_hidden c) XSeq else XSwap 1 2 (XSplit (rc_hidden c) XSeq)) else XUnsqueeze 1 XSeq in
       if lstm then [y; if bi then XHidden else XUnsqueeze 0 XHidden; if bi then XCell else XUnsqueeze 0 XCell]
       else [y; if bi then XHidden else XUnsqueeze 0 XHidden]))).
  Proof.
    intros Hx Hi Hn. unfold gen_module_forward. unfold state_arg, state_expr in Hi. rewrite Hx in Hi |- *. cbv zeta. rewrite no_name by (apply names_in; exact Hn).
    rewrite Hi. reflexivity.
  Qed.
  Lemma gru_forward c n x rest ini : ninputs n = x :: rest ->
    (if rc_h0 c then option_map (fun s => [s]) (state_arg c n 5) else Some []) = Some ini ->
    gen_gru_forward c n = Some
      (let named := fun outs : list rex => filter kept (combine (map aname (noutputs n)) outs) in
       let reverse := match rc_dir c with Reverse => true | _ => false end in
       if bidirectional (rc_dir c)
       then mkCode (XIn (aname x)) ini (named [if rc_batch_first c then XSplit (rc_hidden c) XSeq else XSwap 1 2 (XSplit (rc_hidden c) XSeq); XHidden])
       else let inp := if rc_batch_first c then XIn (aname x) else XSwap 0 1 (XIn (aname x)) in
            let out := if reverse then XFlip1 XSeq else XSeq in
            mkCode (if reverse then XFlip1 inp else inp) ini
              (named [if rc_batch_first c then XUnsqueeze 2 out else XUnsqueeze 1 (XSwap 0 1 out); XUnsqueeze 0 (XStep (negb reverse) out)])).
  Proof.
    intros Hx Hi. unfold gen_gru_forward. unfold state_arg, state_expr in Hi. rewrite Hx in Hi |- *. cbv zeta.
    replace (if rc_h0 c then match nth_error (x :: rest) 5 with Some a => Some [if bidirectional (rc_dir c) then XIn (aname a) else XSqueeze0 (XIn (aname a))] | None => None end else Some [])
      with (Some ini) by (rewrite <- Hi; destruct (rc_h0 c); [destruct (nth_error (x :: rest) 5); reflexivity|reflexivity]).
    destruct (bidirectional (rc_dir c)); reflexivity.
  Qed.

  Section Nodes.
    Variables (value : arg -> option (tensor T)) (e : string -> option (tensor T)) (n : rnode) (layout : bool) (dir : direction) (len batch : N)
      (X : tensor T) (w : @weights T) (h0 : option (tensor T)) (field : string).
    Hypothesis Hin : recurrent_inputs value e n layout dir len batch X w h0.
    Hypothesis HI : input w <> 1.
    Hypothesis HH : hidden w <> 1.
    Hypothesis Hsize : get_attr n "hidden_size" = Some (AInt (Z.of_N (hidden w))).
    Hypothesis Hbound : hidden w < 18446744073709551616.
    Hypothesis Hdir : direction_attr n dir.
    Hypothesis Hlay : layout_attr n layout.
    Hypothesis Hclip : get_attr n "clip" = None.
    Hypothesis Hdist : distinct_outputs n.

    Lemma hidden_state : (layout = false \/ h0 = None) ->
      exists init, (forall c, rc_h0 c = (if h0 then true else false) -> rc_dir c = dir ->
          exists ini, (if rc_h0 c then option_map (fun s => [s]) (state_arg c n 5) else Some []) = Some ini /\
            mapo (xeval e None) ini = Some init) /\
        forallb (fun t => eqs (tshape t) (init_shape dir batch (hidden w))) init = true /\
        forall d b, d < directions dir -> b < batch -> rel (hidden w) (fun v : vec => v) (fun v : vec => v) (state_of zero init (start dir d) b) (initial zero layout h0 d b).
    Proof.
      intros Hl. destruct Hin as (_ & _ & _ & _ & _ & _ & H5 & Hi & _). pose proof (one_state e n 5 layout dir h0 batch (hidden w) H5 Hi Hl) as O. destruct h0 as [t|].
      - destruct O as (a & z & _ & Ea & Ez & Es & Gz). exists [z]. split; [|split].
        + intros c Ec Ed. unfold state_arg. rewrite Ec, Ea, Ed. eexists. split; [reflexivity|]. cbn [mapo]. rewrite Ez. reflexivity.
        + cbn [forallb]. rewrite Es. reflexivity.
        + intros d b Hd Hb. split; intros j Hj; apply Gz; exact Hd.
      - exists []. split; [|split].
        + intros c Ec _. rewrite Ec. exists []. split; reflexivity.
        + reflexivity.
        + intros d b Hd Hb. apply zero_state. reflexivity.
    Qed.

    Lemma rnn_ok f : gates w = 1 -> activations_attr n dir [Tanh] [f] -> burn_has f = true -> (layout = false \/ (dir = Bidirectional /\ h0 = None)) ->
      (forall o, In o (noutputs n) -> aname o <> ""%string) ->
      exists outs, recur_run add mul zero minus1 act value KRnn n field e = Some outs /\
        (forall o, nth_error (noutputs n) 0 = Some o -> exists Y, sget outs (aname o) = Some Y /\
           outputs_all zero layout (fun d => rnn_step add mul zero w d (act f)) (initial zero layout h0) (fun h => h) dir (hidden w) X Y) /\
        (forall o, layout = false -> nth_error (noutputs n) 1 = Some o -> exists Y, sget outs (aname o) = Some Y /\
           outputs_last zero layout (fun d => rnn_step add mul zero w d (act f)) (initial zero layout h0) (fun h => h) dir (hidden w) X Y).
    Proof.
      intros Hg Ha Hb Hl Hn.
      destruct (config_ok value e KRnn n layout dir len batch X w h0 false [f] Hin Hsize Hbound Hdir Hlay Hclip Ha eq_refl ltac:(discriminate)) as [Ec _].
      set (c := mkRC _ _ _ _ _ _ _ _ _ _ _) in Ec. unfold recur_run. rewrite Ec.
      assert (Ef : exists m, gen_field KRnn c = Some m /\ module_for act KRnn m w false [f] /\ m_clip m = false /\ m_bi m = bidirectional dir /\ m_batch_first m = layout /\
        (bidirectional dir = false -> m_reverse m = backwards dir 0)).
      { unfold gen_field. cbn [rc_acts c forallb]. rewrite Hb. cbn [andb]. eexists. split; [reflexivity|]. cbn [module_for m_in m_hid m_bias m_flag m_clip m_bi m_batch_first m_reverse rc_input rc_hidden rc_bias rc_flag rc_clip rc_dir rc_batch_first c].
        split; [|split; [reflexivity|split; [reflexivity|split; [reflexivity|intros _; destruct dir; try discriminate; reflexivity]]]].
        split; [reflexivity|split; [reflexivity|split; [reflexivity|split; [reflexivity|]]]].
        unfold act_of. cbn. destruct (act_eqb f Tanh) eqn:E; [apply act_eqb_eq in E; subst f|]; reflexivity. }
      destruct Ef as (m & Ef & Mf & Mc & Mb & Ml & Mr). rewrite Ef. cbn [obind].
      destruct (hidden_state ltac:(tauto)) as (init & Hini & Is & Ir). destruct (Hini c eq_refl eq_refl) as (ini & E1 & E2).
      pose proof Mf as (Mi & Mh & _ & _ & _).
      pose proof (same_input KRnn (fun d => rnn_step add mul zero w d (act f)) (fun v : vec => v) (fun v : vec => v) (initial zero layout h0) value e n layout dir len batch X w h0 c m field init
        Hin Hg eq_refl eq_refl eq_refl HI HH Mi Mh Mc Mb) as SI.
      assert (SIc : forall l dp d, gates_found add mul zero KRnn w l dp d ->
        exists st, load_cell add mul zero minus1 act KRnn m (stored field l) (field ++ "." ++ dp) = Some st /\ follows (input w) (hidden w) st (rnn_step add mul zero w d (act f)) (fun v => v) (fun v => v)).
      { intros l dp d Hd. exact (rnn_cell add mul zero minus1 act add_assoc add_comm add_zero m w l field dp d false f Mf Hd). }
      specialize (SI SIc Is Ir). clear SIc.
      destruct (snapshots_ok add mul zero add_assoc add_comm add_zero value KRnn c n field w e layout len batch X h0 Hin Hg eq_refl eq_refl HI HH) as (l & El & _).
      destruct (SI _ Ml Mr El) as (o & Y & Yh & Yc & ER & EY & EYh & _ & OY & OL).
      { destruct Hl as [Hl|[Hl _]]; [left; exact Hl|right; rewrite Hl; reflexivity]. }
      clear SI. rewrite El. cbn [obind]. pose proof Hin as ((x & aw & ar & rest & Ei & Ex & _) & _).
      cbn [gen_forward]. rewrite (module_forward false c n x _ ini Ei E1 Hn). cbn [obind co_input co_init co_outs xeval]. rewrite Ex. cbn [obind]. rewrite E2. cbn [obind]. rewrite ER. cbn [obind].
      cbv zeta. cbn [rc_dir rc_hidden rc_batch_first c].
      erewrite outs_eval; [|constructor; [exact EY|constructor; [exact EYh|constructor]]].
      eexists. split; [reflexivity|]. split.
      - intros a Ho. exists Y. split; [|exact OY]. apply (find_out n [Y; Yh] 0 a Y Hdist Ho); [|reflexivity]. apply Hn. apply nth_error_In in Ho. exact Ho.
      - intros a Hlf Ho. exists Yh. split; [|exact (proj1 (OL Hlf))]. apply (find_out n [Y; Yh] 1 a Yh Hdist Ho); [|reflexivity]. apply Hn. apply nth_error_In in Ho. exact Ho.
    Qed.

    Lemma gru_ok flag : gates w = 3 -> activations_attr n dir [Sigmoid; Tanh] [Sigmoid; Tanh] -> flag_attr n "linear_before_reset" flag ->
      (layout = false \/ h0 = None) -> (0 < len \/ dir = Bidirectional) ->
      exists outs, recur_run add mul zero minus1 act value KGru n field e = Some outs /\
        (forall o, nth_error (noutputs n) 0 = Some o -> aname o <> ""%string -> exists Y, sget outs (aname o) = Some Y /\
           outputs_all zero layout (fun d => gru_step add mul zero minus1 w d (act Sigmoid) (act Tanh) flag) (initial zero layout h0) (fun h => h) dir (hidden w) X Y) /\
        (forall o, layout = false -> nth_error (noutputs n) 1 = Some o -> aname o <> ""%string -> exists Y, sget outs (aname o) = Some Y /\
           outputs_last zero layout (fun d => gru_step add mul zero minus1 w d (act Sigmoid) (act Tanh) flag) (initial zero layout h0) (fun h => h) dir (hidden w) X Y).
    Proof.
      intros Hg Ha Hf Hl Hlen.
      destruct (config_ok value e KGru n layout dir len batch X w h0 flag [Sigmoid; Tanh] Hin Hsize Hbound Hdir Hlay Hclip Ha Hf ltac:(discriminate)) as [Ec _].
      set (c := mkRC _ _ _ _ _ _ _ _ _ _ _) in Ec. unfold recur_run. rewrite Ec.
      assert (Ef : exists m, gen_field KGru c = Some m /\ module_for act KGru m w flag [Sigmoid; Tanh] /\ m_clip m = false /\ m_bi m = bidirectional dir /\
        m_batch_first m = (if bidirectional dir then layout else true) /\ m_reverse m = false).
      { eexists. split; [reflexivity|]. cbn. repeat split; reflexivity. }
      destruct Ef as (m & Ef & Mf & Mc & Mb & Ml & Mr). rewrite Ef. cbn [obind].
      destruct (hidden_state Hl) as (init & Hini & Is & Ir). destruct (Hini c eq_refl eq_refl) as (ini & E1 & E2).
      pose proof Mf as (Mi & Mh & _ & _ & _).
      assert (SIc : forall l dp d, gates_found add mul zero KGru w l dp d ->
        exists st, load_cell add mul zero minus1 act KGru m (stored field l) (field ++ "." ++ dp) = Some st /\
          follows (input w) (hidden w) st (gru_step add mul zero minus1 w d (act Sigmoid) (act Tanh) flag) (fun v => v) (fun v => v)).
      { intros l dp d Hd. exact (gru_cell add mul zero minus1 act add_assoc add_comm add_zero m w l field dp d flag Sigmoid Tanh Mf Hd). }
      destruct (snapshots_ok add mul zero add_assoc add_comm add_zero value KGru c n field w e layout len batch X h0 Hin Hg eq_refl eq_refl HI HH) as (l & El & _).
      rewrite El. cbn [obind]. pose proof Hin as ((x & aw & ar & rest & Ei & Ex & _) & WX & SX & _).
      cbn [gen_forward]. rewrite (gru_forward c n x _ ini Ei E1). cbn [obind]. cbv zeta. cbn [rc_dir rc_hidden rc_batch_first c].
      destruct (bidirectional dir) eqn:Eb.
      - destruct (same_input KGru (fun d => gru_step add mul zero minus1 w d (act Sigmoid) (act Tanh) flag) (fun v : vec => v) (fun v : vec => v) (initial zero layout h0) value e n layout dir len batch X w h0 c m field init
          Hin Hg eq_refl eq_refl eq_refl HI HH Mi Mh Mc (eq_trans Mb (eq_sym Eb)) SIc Is Ir _ Ml ltac:(congruence) El (or_intror Eb)) as (o & Y & Yh & Yc & ER & EY & EYh & _ & OY & OL).
        rewrite Eb in EY, EYh. cbn [co_input co_init co_outs xeval]. rewrite Ex. cbn [obind]. rewrite E2. cbn [obind]. rewrite ER. cbn [obind].
        erewrite outs_eval_kept; [|constructor; [exact EY|constructor; [exact EYh|constructor]]].
        eexists. split; [reflexivity|]. split.
        + intros a Ho Hn. exists Y. split; [|exact OY]. rewrite sget_kept by exact Hn. exact (find_out n [Y; Yh] 0 a Y Hdist Ho Hn eq_refl).
        + intros a Hlf Ho Hn. exists Yh. split; [|exact (proj1 (OL Hlf))]. rewrite sget_kept by exact Hn. exact (find_out n [Y; Yh] 1 a Yh Hdist Ho Hn eq_refl).
      - assert (Hlen' : 0 < len) by (destruct Hlen as [H|H]; [exact H|rewrite H in Eb; discriminate]).
        destruct (gru_input (S := vec) (fun d => gru_step add mul zero minus1 w d (act Sigmoid) (act Tanh) flag) (fun v : vec => v) (fun v : vec => v) (initial zero layout h0) e X len batch (input w) layout dir (aname x) Eb Ex WX SX)
          as (Z & EZ & SZ & GZ).
        destruct (batch_first_input KGru (fun d => gru_step add mul zero minus1 w d (act Sigmoid) (act Tanh) flag) (fun v : vec => v) (fun v : vec => v) (initial zero layout h0) value e n layout dir len batch X w h0 c m field init
          Hin Hg eq_refl eq_refl eq_refl HI HH Mi Mh Mc (eq_trans Mb (eq_sym Eb)) SIc Is Ir _ Z Eb Hlen' Ml Mr El SZ GZ) as (o & Y & Yh & ER & EY & EYh & OY & OL).
        replace (match dir with Reverse => true | _ => false end) with (backwards dir 0) by (destruct dir; try discriminate; reflexivity).
        cbn [co_input co_init co_outs]. rewrite EZ. cbn [obind]. rewrite E2. cbn [obind]. rewrite ER. cbn [obind].
        erewrite outs_eval_kept; [|constructor; [exact EY|constructor; [exact EYh|constructor]]].
        eexists. split; [reflexivity|]. split.
        + intros a Ho Hn. exists Y. split; [|exact OY]. rewrite sget_kept by exact Hn. exact (find_out n [Y; Yh] 0 a Y Hdist Ho Hn eq_refl).
        + intros a Hlf Ho Hn. exists Yh. split; [|exact (OL Hlf)]. rewrite sget_kept by exact Hn. exact (find_out n [Y; Yh] 1 a Yh Hdist Ho Hn eq_refl).
    Qed.

    Lemma lstm_ok f g hh flag c0 : gates w = 4 -> activations_attr n dir [Sigmoid; Tanh; Tanh] [f; g; hh] -> Forall (fun a => burn_has a = true) [f; g; hh] ->
      flag_attr n "input_forget" flag -> given n 7 = None ->
      optional_input (fun a => e (aname a)) n 6 3 c0 -> initial_ok layout c0 (directions dir) batch (hidden w) -> (h0 = None <-> c0 = None) ->
      (layout = false \/ (dir = Bidirectional /\ h0 = None)) -> (forall o, In o (noutputs n) -> aname o <> ""%string) ->
      let step := fun d => lstm_step add mul zero minus1 w d (act f) (act g) (act hh) flag in
      let s0 := fun d b => (initial zero layout h0 d b, initial zero layout c0 d b) in
      exists outs, recur_run add mul zero minus1 act value KLstm n field e = Some outs /\
        (forall o, nth_error (noutputs n) 0 = Some o -> exists Y, sget outs (aname o) = Some Y /\ outputs_all zero layout step s0 fst dir (hidden w) X Y) /\
        (forall o, layout = false -> nth_error (noutputs n) 1 = Some o -> exists Y, sget outs (aname o) = Some Y /\ outputs_last zero layout step s0 fst dir (hidden w) X Y) /\
        (forall o, layout = false -> nth_error (noutputs n) 2 = Some o -> exists Y, sget outs (aname o) = Some Y /\ outputs_last zero layout step s0 snd dir (hidden w) X Y).
    Proof.
      intros Hg Ha Hb Hf H7 H6 Hi6 Hboth Hl Hn step s0.
      destruct (config_ok value e KLstm n layout dir len batch X w h0 flag [f; g; hh] Hin Hsize Hbound Hdir Hlay Hclip Ha Hf (fun _ => H7)) as [Ec _].
      set (c := mkRC _ _ _ _ _ _ _ _ _ _ _) in Ec. unfold recur_run. rewrite Ec.
      assert (Ef : exists m, gen_field KLstm c = Some m /\ module_for act KLstm m w flag [f; g; hh] /\ m_clip m = false /\ m_bi m = bidirectional dir /\ m_batch_first m = layout /\
        (bidirectional dir = false -> m_reverse m = backwards dir 0)).
      { inversion Hb as [|? ? Bf Hb1]; subst. inversion Hb1 as [|? ? Bg Hb2]; subst. inversion Hb2 as [|? ? Bh _]; subst.
        unfold gen_field. cbn [rc_acts c forallb]. rewrite Bf, Bg, Bh. cbn [andb]. eexists. split; [reflexivity|]. cbn [module_for m_in m_hid m_bias m_flag m_clip m_bi m_batch_first m_reverse rc_input rc_hidden rc_bias rc_flag rc_clip rc_dir rc_batch_first c].
        split; [|split; [reflexivity|split; [reflexivity|split; [reflexivity|intros _; destruct dir; try discriminate; reflexivity]]]].
        split; [reflexivity|split; [reflexivity|split; [reflexivity|split; [reflexivity|]]]].
        split; [|split]; unfold act_of; cbn.
        - destruct (act_eqb f Sigmoid) eqn:E; [apply act_eqb_eq in E; subst f|]; reflexivity.
        - destruct (act_eqb g Tanh) eqn:E; [apply act_eqb_eq in E; subst g|]; reflexivity.
        - destruct (act_eqb hh Tanh) eqn:E; [apply act_eqb_eq in E; subst hh|]; reflexivity. }
      destruct Ef as (m & Ef & Mf & Mc & Mb & Ml & Mr). rewrite Ef. cbn [obind].
      assert (Hst : exists init ini,
          (if rc_h0 c && rc_c0 c then match state_arg c n 6, state_arg c n 5 with Some c0, Some h0 => Some [c0; h0] | _, _ => None end else Some []) = Some ini /\
          mapo (xeval e None) ini = Some init /\
          forallb (fun t => eqs (tshape t) (init_shape dir batch (hidden w))) init = true /\
          forall d b, d < directions dir -> b < batch -> rel (hidden w) fst snd (state_of zero init (start dir d) b) (s0 d b)).
      { destruct Hin as (_ & _ & _ & _ & _ & _ & H5 & Hi5 & _).
        assert (L5 : layout = false \/ h0 = None) by tauto. assert (L6 : layout = false \/ c0 = None) by tauto.
        pose proof (one_state e n 5 layout dir h0 batch (hidden w) H5 Hi5 L5) as O5. pose proof (one_state e n 6 layout dir c0 batch (hidden w) H6 Hi6 L6) as O6.
        cbn [rc_h0 rc_c0 c]. unfold state_arg. cbn [rc_dir c]. unfold s0. clear - O5 O6 Hboth.
        destruct h0 as [th|]; destruct c0 as [tc|].
        - destruct O5 as (a5 & z5 & _ & N5 & X5 & S5 & G5). destruct O6 as (a6 & z6 & I6 & N6 & X6 & S6 & G6). rewrite I6, N5, N6. cbn [andb].
          eexists _, _. split; [reflexivity|]. cbn [mapo]. rewrite X5, X6. split; [reflexivity|]. split; [cbn [forallb]; rewrite S5, S6; reflexivity|].
          intros d b Hd _. split; intros j _; [apply G5|apply G6]; exact Hd.
        - destruct Hboth as [_ Hb]. discriminate (Hb eq_refl).
        - destruct Hboth as [Hb _]. discriminate (Hb eq_refl).
        - exists [], []. split; [reflexivity|]. split; [reflexivity|]. split; [reflexivity|]. intros d b _ _. split; intros j _; reflexivity. }
      destruct Hst as (init & ini & E1 & E2 & Is & Ir).
      pose proof Mf as (Mi & Mh & _ & _ & _).
      assert (SIc : forall l dp d, gates_found add mul zero KLstm w l dp d ->
        exists st, load_cell add mul zero minus1 act KLstm m (stored field l) (field ++ "." ++ dp) = Some st /\ follows (input w) (hidden w) st (step d) fst snd).
      { intros l dp d Hd. exact (lstm_cell add mul zero minus1 act add_assoc add_comm add_zero m w l field dp d flag f g hh Mf Hd). }
      destruct (snapshots_ok add mul zero add_assoc add_comm add_zero value KLstm c n field w e layout len batch X h0 Hin Hg eq_refl eq_refl HI HH) as (l & El & _).
      destruct (same_input KLstm step fst snd s0 value e n layout dir len batch X w h0 c m field init
        Hin Hg eq_refl eq_refl eq_refl HI HH Mi Mh Mc Mb SIc Is Ir _ Ml Mr El) as (o & Y & Yh & Yc & ER & EY & EYh & EYc & OY & OL).
      { destruct Hl as [Hl|[Hl _]]; [left; exact Hl|right; rewrite Hl; reflexivity]. }
      rewrite El. cbn [obind]. pose proof Hin as ((x & aw & ar & rest & Ei & Ex & _) & _).
      cbn [gen_forward]. rewrite (module_forward true c n x _ ini Ei E1 Hn). cbn [obind co_input co_init co_outs xeval]. rewrite Ex. cbn [obind]. rewrite E2. cbn [obind]. rewrite ER. cbn [obind].
      cbv zeta. cbn [rc_dir rc_hidden rc_batch_first c].
      erewrite outs_eval; [|constructor; [exact EY|constructor; [exact EYh|constructor; [exact EYc|constructor]]]].
      eexists. split; [reflexivity|]. split; [|split].
      - intros a Ho. exists Y. split; [|exact OY]. apply (find_out n [Y; Yh; Yc] 0 a Y Hdist Ho); [|reflexivity]. apply Hn. apply nth_error_In in Ho. exact Ho.
      - intros a Hlf Ho. exists Yh. split; [|exact (proj1 (OL Hlf))]. apply (find_out n [Y; Yh; Yc] 1 a Yh Hdist Ho); [|reflexivity]. apply Hn. apply nth_error_In in Ho. exact Ho.
      - intros a Hlf Ho. exists Yc. split; [|exact (proj2 (OL Hlf))]. apply (find_out n [Y; Yh; Yc] 2 a Yc Hdist Ho); [|reflexivity]. apply Hn. apply nth_error_In in Ho. exact Ho.
    Qed.
  End Nodes.
End Final.
