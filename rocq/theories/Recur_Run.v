(** RNN, GRU and LSTM: loading the module and running the emitted statement. *)
From Coq Require Import Lia ZifyBool ZifyNat ZifyN.
From Verif Require Export Recur_Nodes.
From Verif Require Import Tensor_Proofs Lines_Proofs Index_Model Linear_Model Linear_Proofs.
Import Recur_Spec Tensor_Spec.
Local Open Scope N_scope.

Lemma append_assoc : forall a b c : string, ((a ++ b) ++ c = a ++ (b ++ c))%string.
Proof. induction a as [|x a IH]; intros b c; [reflexivity|]. cbn. rewrite IH. reflexivity. Qed.
Lemma eqb_prefix : forall f a b : string, String.eqb (f ++ a) (f ++ b) = String.eqb a b.
Proof. induction f as [|x f IH]; intros a b; [reflexivity|]. cbn. rewrite Ascii.eqb_refl. apply IH. Qed.
Lemma act_eqb_eq a b : act_eqb a b = true -> a = b.
Proof. destruct a, b; cbn; intros E; try reflexivity; discriminate. Qed.
Lemma act_eqb_refl a : act_eqb a a = true.
Proof. apply String.eqb_refl. Qed.

Section Load.
  Context {T : Type} (add mul : T -> T -> T) (zero : T) (minus1 : T -> T) (act : activation -> T -> T).
  Hypothesis add_assoc : forall a b c, add a (add b c) = add (add a b) c.
  Hypothesis add_comm : forall a b, add a b = add b a.
  Hypothesis add_zero : forall a, add a zero = a.
  Notation vec := (N -> T).
  Implicit Types w : @weights T.

  Definition stored (field : string) (l : list (string * tensor T)) : list (string * tensor T) :=
    map (fun pt => (field ++ "." ++ fst pt, snd pt)%string) l.
  Lemma stored_get field l q : sget (stored field l) (field ++ "." ++ q) = sget l q.
  Proof.
    induction l as [|[p t] l IH]; [reflexivity|]. unfold stored in *. cbn [map sget fst snd]. rewrite eqb_prefix. rewrite (eqb_prefix "." p q). rewrite IH. reflexivity.
  Qed.
  Definition finds (l : list (string * tensor T)) (p : string) (q : quad) : Prop :=
    sget l (p ++ ".input_transform.weight") = Some (q_iw q) /\ sget l (p ++ ".input_transform.bias") = q_ib q /\
    sget l (p ++ ".hidden_transform.weight") = Some (q_hw q) /\ sget l (p ++ ".hidden_transform.bias") = q_hb q.
  Lemma load_gate_ok m l field p w q : m_in m = input w -> m_hid m = hidden w -> m_bias m = (if wB w then true else false) ->
    quad_shapes w q -> finds l p q -> load_gate m (stored field l) (field ++ "." ++ p) = Some (loaded w q).
  Proof.
    intros Hi Hh Hb (Si & Sh & Sb) (F1 & F2 & F3 & F4). unfold load_gate, load_linear, param. rewrite Hi, Hh, Hb.
    replace (((field ++ "." ++ p) ++ ".input_transform") ++ ".weight")%string with (field ++ "." ++ (p ++ ".input_transform.weight"))%string by (rewrite !append_assoc; reflexivity).
    replace (((field ++ "." ++ p) ++ ".input_transform") ++ ".bias")%string with (field ++ "." ++ (p ++ ".input_transform.bias"))%string by (rewrite !append_assoc; reflexivity).
    replace (((field ++ "." ++ p) ++ ".hidden_transform") ++ ".weight")%string with (field ++ "." ++ (p ++ ".hidden_transform.weight"))%string by (rewrite !append_assoc; reflexivity).
    replace (((field ++ "." ++ p) ++ ".hidden_transform") ++ ".bias")%string with (field ++ "." ++ (p ++ ".hidden_transform.bias"))%string by (rewrite !append_assoc; reflexivity).
    rewrite !stored_get, F1, F2, F3, F4, Si, Sh, !eqs_refl. cbn [obind]. unfold loaded.
    destruct (wB w).
    - destruct Sb as (ib & hb & -> & -> & S1 & S2). rewrite S1, S2, eqs_refl. reflexivity.
    - destruct Sb as [-> ->]. reflexivity.
  Qed.

  (** One step of each module. *)
  Definition gates_found (k : rkind) w (l : list (string * tensor T)) (dp : string) (d : N) : Prop :=
    forall name g, In (name, g) (gate_table k) -> exists q, finds l (dp ++ name) q /\ quad_shapes w q /\ gate_ok add mul zero k w d g (loaded w q).
  Definition module_for (k : rkind) (m : rmodule) w (flag : bool) (acts : list activation) : Prop :=
    m_in m = input w /\ m_hid m = hidden w /\ m_bias m = (if wB w then true else false) /\ m_flag m = flag /\
    match k, acts with
    | KRnn, [f] => act_of act m 0 Tanh = act f
    | KGru, [f; g] => f = Sigmoid /\ g = Tanh
    | KLstm, [f; g; h] => act_of act m 0 Sigmoid = act f /\ act_of act m 1 Tanh = act g /\ act_of act m 2 Tanh = act h
    | _, _ => False
    end.
  Lemma gate_loads k m w l field dp d name g : m_in m = input w -> m_hid m = hidden w -> m_bias m = (if wB w then true else false) ->
    gates_found k w l dp d -> In (name, g) (gate_table k) ->
    exists ga, load_gate m (stored field l) ((field ++ "." ++ dp) ++ name) = Some ga /\ gate_ok add mul zero k w d g ga.
  Proof.
    intros Hi Hh Hb Hf Hin. destruct (Hf name g Hin) as (q & F & S & G). exists (loaded w q). split; [|exact G].
    rewrite !append_assoc. apply load_gate_ok; assumption.
  Qed.
  Lemma rnn_cell m w l field dp d flag f : module_for KRnn m w flag [f] -> gates_found KRnn w l dp d ->
    exists st, load_cell add mul zero minus1 act KRnn m (stored field l) (field ++ "." ++ dp) = Some st /\
      follows (input w) (hidden w) st (rnn_step add mul zero w d (act f)) (fun v => v) (fun v => v).
  Proof.
    intros (Hi & Hh & Hb & Hf & Ha) Hg. unfold load_cell.
    destruct (gate_loads KRnn m w l field dp d "gate" 0 Hi Hh Hb Hg ltac:(cbn; auto)) as (ga & -> & G).
    eexists. split; [reflexivity|]. intros x x' s h' Hx [Hs _]. rewrite Ha.
    assert (E : agree (hidden w) (fun j => act f (gate_run add mul zero ga x (fst s) j)) (rnn_step add mul zero w d (act f) x' h')).
    { intros j Hj. unfold rnn_step. rewrite (gate_run_ok add mul zero add_assoc add_comm add_zero KRnn w d 0 ga x x' (fst s) h' j G Hx Hs Hj). reflexivity. }
    split; exact E.
  Qed.
  Lemma gru_cell m w l field dp d flag f g : module_for KGru m w flag [f; g] -> gates_found KGru w l dp d ->
    exists st, load_cell add mul zero minus1 act KGru m (stored field l) (field ++ "." ++ dp) = Some st /\
      follows (input w) (hidden w) st (gru_step add mul zero minus1 w d (act f) (act g) flag) (fun v => v) (fun v => v).
  Proof.
    intros (Hi & Hh & Hb & Hf & -> & ->) Hg. unfold load_cell.
    destruct (gate_loads KGru m w l field dp d "update_gate" 0 Hi Hh Hb Hg ltac:(cbn; auto)) as (gu & -> & Gu). cbn [obind].
    destruct (gate_loads KGru m w l field dp d "reset_gate" 1 Hi Hh Hb Hg ltac:(cbn; auto)) as (gr & -> & Gr). cbn [obind].
    destruct (gate_loads KGru m w l field dp d "new_gate" 2 Hi Hh Hb Hg ltac:(cbn; auto)) as (gn & -> & Gn). cbn [obind].
    eexists. split; [reflexivity|]. intros x x' s h' Hx [Hs _]. rewrite Hf.
    match goal with |- rel _ _ _ (?a, _) _ => assert (E : agree (hidden w) a (gru_step add mul zero minus1 w d (act Sigmoid) (act Tanh) flag x' h')) end; [|split; exact E].
    assert (R : agree (hidden w) (fun j => act Sigmoid (gate_run add mul zero gr x (fst s) j)) (fun j => act Sigmoid (pre add mul zero w d 1 x' h' j))).
    { intros j Hj. rewrite (gate_run_ok add mul zero add_assoc add_comm add_zero KGru w d 1 gr x x' (fst s) h' j Gr Hx Hs Hj). reflexivity. }
    intros j Hj. unfold gru_step.
    rewrite (gate_run_ok add mul zero add_assoc add_comm add_zero KGru w d 0 gu x x' (fst s) h' j Gu Hx Hs Hj). rewrite (Hs j Hj).
    f_equal. f_equal. f_equal. destruct flag.
    - rewrite (R j Hj). destruct (gru_parts add mul zero w d 2 gn x x' (fst s) h' j Gn Hx Hs Hj) as [-> ->].
      rewrite <- !add_assoc. f_equal. apply add_comm.
    - rewrite (gate_run_ok add mul zero add_assoc add_comm add_zero KGru w d 2 gn x x' _ (fun k => mul (act Sigmoid (pre add mul zero w d 1 x' h' k)) (h' k)) j Gn Hx); [| |exact Hj].
      + unfold pre. rewrite <- !add_assoc. f_equal. f_equal. apply add_comm.
      + intros i Hi'. rewrite (R i Hi'), (Hs i Hi'). reflexivity.
  Qed.
  Lemma lstm_cell m w l field dp d flag f g hh : module_for KLstm m w flag [f; g; hh] -> gates_found KLstm w l dp d ->
    exists st, load_cell add mul zero minus1 act KLstm m (stored field l) (field ++ "." ++ dp) = Some st /\
      follows (input w) (hidden w) st (lstm_step add mul zero minus1 w d (act f) (act g) (act hh) flag) fst snd.
  Proof.
    intros (Hi & Hh & Hb & Hf & A0 & A1 & A2) Hg. unfold load_cell.
    destruct (gate_loads KLstm m w l field dp d "input_gate" 0 Hi Hh Hb Hg ltac:(cbn; auto)) as (gi & -> & Gi). cbn [obind].
    destruct (gate_loads KLstm m w l field dp d "forget_gate" 2 Hi Hh Hb Hg ltac:(cbn; auto)) as (gf & -> & Gf). cbn [obind].
    destruct (gate_loads KLstm m w l field dp d "output_gate" 1 Hi Hh Hb Hg ltac:(cbn; auto)) as (go & -> & Go). cbn [obind].
    destruct (gate_loads KLstm m w l field dp d "cell_gate" 3 Hi Hh Hb Hg ltac:(cbn; auto)) as (gc & -> & Gc). cbn [obind].
    eexists. split; [reflexivity|]. intros x x' [h c] [h' c'] Hx [Hs Hc]. cbn [fst snd] in Hs, Hc. rewrite Hf, A0, A1, A2.
    pose proof (fun k ga G j Hj => gate_run_ok add mul zero add_assoc add_comm add_zero KLstm w d k ga x x' h h' j G Hx Hs Hj) as P.
    unfold lstm_step.
    match goal with |- rel _ _ _ (_, ?a) (_, ?b) => assert (E : agree (hidden w) a b) end.
    { intros j Hj. rewrite (P 0 gi Gi j Hj), (P 3 gc Gc j Hj), (Hc j Hj). destruct flag; [reflexivity|]. rewrite (P 2 gf Gf j Hj). reflexivity. }
    split; [|exact E]. intros j Hj. cbn [fst snd]. rewrite (P 1 go Go j Hj). f_equal. f_equal. apply (E j Hj).
  Qed.

  (** ** The module *)
  Section Module.
    Context {S : Type}.
    Variables (k : rkind) (m : rmodule) (snaps : list (string * tensor T)) (field : string) (w : @weights T).
    Variables (sp : N -> vec -> S -> S) (ph pc : S -> vec) (s0 : N -> N -> S).
    Variables (X : tensor T) (init : list (tensor T)) (len batch : N) (x : N -> N -> vec).
    Hypothesis Mi : m_in m = input w.
    Hypothesis Mh : m_hid m = hidden w.
    Hypothesis Mc : m_clip m = false.
    Hypothesis HX : tshape X = shape3 (m_batch_first m) len batch (input w).
    Hypothesis Hx : forall b t, b < batch -> t < len -> agree (input w) (fun i => at_ zero X (shape3 (m_batch_first m) t b i)) (x b t).
    Let Hd := hidden w.
    Lemma uni_run st : m_bi m = false -> forallb (fun t => eqs (tshape t) [batch; hidden w]) init = true ->
      load_cell add mul zero minus1 act k m snaps (field ++ "." ++ "") = Some st -> follows (input w) (hidden w) st (sp 0) ph pc ->
      (forall b, b < batch -> rel (hidden w) ph pc (state_of zero init (fun b => [b]) b) (s0 0 b)) ->
      exists y h c, module_run add mul zero minus1 act k m snaps field X init = Some (y, h, c) /\
        (twf y /\ tshape y = shape3 (m_batch_first m) len batch (hidden w) /\ twf h /\ tshape h = [batch; hidden w] /\ twf c /\ tshape c = [batch; hidden w]) /\
        (forall t b j, t < len -> b < batch -> j < hidden w -> get y (shape3 (m_batch_first m) t b j) = Some (ph (after (sp 0) (x b) len (m_reverse m) (s0 0 b) (steps_at len (m_reverse m) t)) j)) /\
        (forall b j, b < batch -> j < hidden w -> get h [b; j] = Some (ph (after (sp 0) (x b) len (m_reverse m) (s0 0 b) (N.to_nat len)) j)) /\
        (forall b j, b < batch -> j < hidden w -> get c [b; j] = Some (pc (after (sp 0) (x b) len (m_reverse m) (s0 0 b) (N.to_nat len)) j)).
    Proof.
      intros Hbi Hinit Hl Hf Hs. unfold module_run. rewrite Mc, HX, Hbi.
      destruct (run_batch_ok zero (input w) (hidden w) st (sp 0) ph pc Hf (m_batch_first m) len batch (m_reverse m) (state_of zero init (fun b => [b])) (s0 0) X x Hx Hs)
        as (y & h & c & E & R).
      destruct (m_batch_first m); cbn [shape3]; rewrite Mi, N.eqb_refl, Mh, Hinit, Hl; cbn [negb obind]; rewrite E; exists y, h, c; (split; [reflexivity|exact R]).
    Qed.
    Lemma bi_run sf sr : m_bi m = true -> forallb (fun t => eqs (tshape t) [2; batch; hidden w]) init = true ->
      load_cell add mul zero minus1 act k m snaps (field ++ "." ++ "forward.") = Some sf -> follows (input w) (hidden w) sf (sp 0) ph pc ->
      load_cell add mul zero minus1 act k m snaps (field ++ "." ++ "reverse.") = Some sr -> follows (input w) (hidden w) sr (sp 1) ph pc ->
      (forall d b, d < 2 -> b < batch -> rel (hidden w) ph pc (state_of zero init (fun b => [d; b]) b) (s0 d b)) ->
      exists y h c, module_run add mul zero minus1 act k m snaps field X init = Some (y, h, c) /\
        (twf y /\ tshape y = shape3 (m_batch_first m) len batch (2 * hidden w) /\ twf h /\ tshape h = [2; batch; hidden w] /\ twf c /\ tshape c = [2; batch; hidden w]) /\
        (forall t d b j, t < len -> d < 2 -> b < batch -> j < hidden w ->
           get y (shape3 (m_batch_first m) t b (d * hidden w + j)) = Some (ph (after (sp d) (x b) len (d =? 1) (s0 d b) (steps_at len (d =? 1) t)) j)) /\
        (forall d b j, d < 2 -> b < batch -> j < hidden w -> get h [d; b; j] = Some (ph (after (sp d) (x b) len (d =? 1) (s0 d b) (N.to_nat len)) j)) /\
        (forall d b j, d < 2 -> b < batch -> j < hidden w -> get c [d; b; j] = Some (pc (after (sp d) (x b) len (d =? 1) (s0 d b) (N.to_nat len)) j)).
    Proof.
      intros Hbi Hinit Hlf Hff Hlr Hfr Hs. unfold module_run. rewrite Mc, HX, Hbi.
      destruct (run_batch_ok zero (input w) (hidden w) sf (sp 0) ph pc Hff (m_batch_first m) len batch false (state_of zero init (fun b => [0; b])) (s0 0) X x Hx (fun b => Hs 0 b ltac:(lia)))
        as (yf & hf & cf & Ef & (Wyf & Syf & Whf & Shf & Wcf & Scf) & Gyf & Ghf & Gcf).
      destruct (run_batch_ok zero (input w) (hidden w) sr (sp 1) ph pc Hfr (m_batch_first m) len batch true (state_of zero init (fun b => [1; b])) (s0 1) X x Hx (fun b => Hs 1 b ltac:(lia)))
        as (yr & hr & cr & Er & (Wyr & Syr & Whr & Shr & Wcr & Scr) & Gyr & Ghr & Gcr).
      assert (Dir : forall d, d < 2 -> d = 0 \/ d = 1) by (intros; lia).
      assert (Stack : forall (pp : S -> vec) (a b : tensor T), twf a -> tshape a = [batch; hidden w] -> twf b -> tshape b = [batch; hidden w] ->
        (forall i j, i < batch -> j < hidden w -> get a [i; j] = Some (pp (after (sp 0) (x i) len false (s0 0 i) (N.to_nat len)) j)) ->
        (forall i j, i < batch -> j < hidden w -> get b [i; j] = Some (pp (after (sp 1) (x i) len true (s0 1 i) (N.to_nat len)) j)) ->
        exists z, tab [2; batch; hidden w] (fun idx => match idx with [d; i; j] => get (if d =? 0 then a else b) [i; j] | _ => None end) = Some z /\ twf z /\ tshape z = [2; batch; hidden w] /\
          forall d i j, d < 2 -> i < batch -> j < hidden w -> get z [d; i; j] = Some (pp (after (sp d) (x i) len (d =? 1) (s0 d i) (N.to_nat len)) j)).
      { intros pp a b Wa Sa Wb' Sb Ga Gb.
        match goal with |- context [tab ?s1 ?f1] => destruct (tab_gets s1 f1) as (z & Hz & Wz & Sz & Gz) end.
        { intros idx Hi. destruct (valid3 _ _ _ _ Hi) as (d & i & j & -> & Hd' & Hi' & Hj). destruct (d =? 0); [rewrite Ga by assumption|rewrite Gb by assumption]; eexists; reflexivity. }
        exists z. repeat split; try assumption. intros d i j Hd' Hi Hj. rewrite (Gz [d; i; j]) by (apply is_valid3; assumption).
        destruct (Dir d Hd') as [-> | ->]; cbn [N.eqb Pos.eqb]; [apply Ga|apply Gb]; assumption. }
      destruct (Stack ph hf hr Whf Shf Whr Shr Ghf Ghr) as (h & Hh & Wh & Sh & Gh).
      destruct (Stack pc cf cr Wcf Scf Wcr Scr Gcf Gcr) as (c & Hc & Wc & Sc & Gc).
      assert (Cat : forall p q, shape3 (m_batch_first m) len batch (2 * hidden w) = [p; q; 2 * hidden w] ->
        exists z, tab [p; q; 2 * hidden w] (fun idx => match idx with [u; v; j] => if j <? hidden w then get yf [u; v; j] else get yr [u; v; j - hidden w] | _ => None end) = Some z /\ twf z /\
          tshape z = [p; q; 2 * hidden w] /\
          forall t d b j, t < len -> d < 2 -> b < batch -> j < hidden w ->
           get z (shape3 (m_batch_first m) t b (d * hidden w + j)) = Some (ph (after (sp d) (x b) len (d =? 1) (s0 d b) (steps_at len (d =? 1) t)) j)).
      { intros p q Epq.
        match goal with |- context [tab ?s1 ?f1] => destruct (tab_gets s1 f1) as (z & Hz & Wz & Sz & Gz) end.
        { intros idx Hi. destruct (valid3 _ _ _ _ Hi) as (u & v & j & -> & Hu & Hv & Hj).
          assert (Ev : shape3 (m_batch_first m) len batch (hidden w) = [p; q; hidden w]) by (destruct (m_batch_first m); cbn in *; congruence).
          destruct (N.ltb_spec j (hidden w)).
          - apply (get_some yf [p; q; hidden w]); [exact Wyf|rewrite Syf; exact Ev|apply is_valid3; lia].
          - apply (get_some yr [p; q; hidden w]); [exact Wyr|rewrite Syr; exact Ev|apply is_valid3; lia]. }
        exists z. repeat split; try assumption. intros t d b j Ht Hd' Hb Hj.
        assert (Hlt : d * hidden w + j < 2 * hidden w) by nia.
        destruct (m_batch_first m); cbn [shape3] in *; injection Epq as E1 E2; subst p q.
        - rewrite (Gz [b; t; d * hidden w + j]) by (apply is_valid3; assumption).
          destruct (Dir d Hd') as [-> | ->]; cbn [N.eqb Pos.eqb].
          + replace (0 * hidden w + j) with j by lia. replace (j <? hidden w) with true by lia. apply Gyf; assumption.
          + replace (1 * hidden w + j <? hidden w) with false by lia. replace (1 * hidden w + j - hidden w) with j by lia. apply Gyr; assumption.
        - rewrite (Gz [t; b; d * hidden w + j]) by (apply is_valid3; assumption).
          destruct (Dir d Hd') as [-> | ->]; cbn [N.eqb Pos.eqb].
          + replace (0 * hidden w + j) with j by lia. replace (j <? hidden w) with true by lia. apply Gyf; assumption.
          + replace (1 * hidden w + j <? hidden w) with false by lia. replace (1 * hidden w + j - hidden w) with j by lia. apply Gyr; assumption. }
      destruct (m_batch_first m) eqn:Ebf; cbn [shape3]; rewrite Mi, N.eqb_refl, Mh, Hinit, Hlf, Hlr; cbn [negb]; rewrite Ef, Er.
      - destruct (Cat batch len eq_refl) as (y & Hy & Wy & Sy & Gy). rewrite Hh, Hc, Hy. exists y, h, c. split; [reflexivity|]. split; [repeat split; assumption|]. split; [exact Gy|split; assumption].
      - destruct (Cat len batch eq_refl) as (y & Hy & Wy & Sy & Gy). rewrite Hh, Hc, Hy. exists y, h, c. split; [reflexivity|]. split; [repeat split; assumption|]. split; [exact Gy|split; assumption].
    Qed.
  End Module.
End Load.
