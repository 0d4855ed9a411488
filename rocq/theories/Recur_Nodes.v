(** RNN, GRU and LSTM: from the weights of the model to the outputs. *)
From Coq Require Import Lia ZifyBool ZifyNat ZifyN.
From Verif Require Export Recur_Proofs.
From Verif Require Import Tensor_Proofs Lines_Proofs Index_Model Linear_Model Linear_Proofs.
Import Recur_Spec Tensor_Spec.
Local Open Scope N_scope.

Lemma nth_rev {A} (l : list A) n : (n < length l)%nat -> nth_error (rev l) n = nth_error l (length l - 1 - n).
Proof.
  intros Hn. destruct l as [|a l]; [cbn in Hn; lia|]. set (m := a :: l) in *.
  rewrite (nth_error_nth' (rev m) a) by (rewrite rev_length; exact Hn).
  rewrite (nth_error_nth' m a) by lia. f_equal. rewrite rev_nth by exact Hn. f_equal. lia.
Qed.
Lemma upto_nth n k : (k < N.to_nat n)%nat -> nth_error (upto n) k = Some (N.of_nat k).
Proof.
  intros Hk. unfold upto. rewrite nth_error_map.
  rewrite (nth_error_nth' (seq 0 (N.to_nat n)) 0%nat) by (rewrite seq_length; exact Hk). rewrite seq_nth by exact Hk. reflexivity.
Qed.
Lemma firstn_S {A} (l : list A) k a : nth_error l k = Some a -> firstn (S k) l = firstn k l ++ [a].
Proof.
  revert k. induction l as [|b l IH]; intros k H; [destruct k; discriminate|]. destruct k as [|k]; cbn in *; [injection H as <-; reflexivity|].
  rewrite <- (IH k H). reflexivity.
Qed.

Lemma last_cons {A} : forall (m : list A) a d, last (a :: m) d = last m a.
Proof. induction m as [|b m IH]; intros a d; [reflexivity|]. change (last (b :: m) d = last (b :: m) a). rewrite !IH. reflexivity. Qed.

Section Sequences.
  Context {T : Type} (zero : T).
  Notation vec := (N -> T).
  Definition agree (n : N) (a b : vec) : Prop := forall i, i < n -> a i = b i.

  (** ** Sequences *)
  Section Seq.
    Context {S : Type}.
    Variables (I H : N) (step : vec -> vec * vec -> vec * vec) (sp : vec -> S -> S) (ph pc : S -> vec).
    Definition rel (s : vec * vec) (s' : S) : Prop := agree H (fst s) (ph s') /\ agree H (snd s) (pc s').
    Definition follows : Prop := forall x x' s s', agree I x x' -> rel s s' -> rel (step x s) (sp x' s').
    Hypothesis Hstep : follows.
    Definition along (x : N -> vec) (l : list N) (s : S) : S := fold_left (fun s t => sp (x t) s) l s.
    Lemma scan_nth xv x : forall l s s' k, (forall t, In t l -> agree I (xv t) (x t)) -> rel s s' -> (k < length l)%nat ->
      exists st, nth_error (scan step s (map xv l)) k = Some st /\ rel st (along x (firstn (Datatypes.S k) l) s').
    Proof.
      induction l as [|t l IH]; intros s s' k Hx Hr Hk; [cbn in Hk; lia|].
      assert (Hr' : rel (step (xv t) s) (sp (x t) s')) by (apply Hstep; [apply Hx; left; reflexivity|exact Hr]).
      destruct k as [|k].
      - exists (step (xv t) s). split; [reflexivity|]. cbn. exact Hr'.
      - destruct (IH (step (xv t) s) (sp (x t) s') k) as (st & Hst & Hrs); [intros; apply Hx; right; assumption|exact Hr'|cbn in Hk; lia|].
        exists st. split; [exact Hst|exact Hrs].
    Qed.
    Lemma scan_last xv x : forall l s s', (forall t, In t l -> agree I (xv t) (x t)) -> rel s s' ->
      rel (last (scan step s (map xv l)) s) (along x l s').
    Proof.
      induction l as [|t l IH]; intros s s' Hx Hr; [exact Hr|].
      assert (Hr' : rel (step (xv t) s) (sp (x t) s')) by (apply Hstep; [apply Hx; left; reflexivity|exact Hr]).
      pose proof (IH (step (xv t) s) (sp (x t) s') ltac:(intros; apply Hx; right; assumption) Hr') as E.
      cbn [map scan along fold_left]. rewrite last_cons. exact E.
    Qed.
    Definition order (len : N) (back : bool) : list N := if back then rev (upto len) else upto len.
    Lemma order_len len back : length (order len back) = N.to_nat len.
    Proof. unfold order. destruct back; rewrite ?rev_length; apply upto_len. Qed.
    Lemma order_nth len back k : (k < N.to_nat len)%nat -> nth_error (order len back) k = Some (if back then len - 1 - N.of_nat k else N.of_nat k).
    Proof.
      intros Hk. unfold order. destruct back; [|apply upto_nth; exact Hk]. rewrite nth_rev by (rewrite upto_len; exact Hk). rewrite upto_len, upto_nth by lia. f_equal. lia.
    Qed.
    Lemma after_along x len back s : forall k, (k <= N.to_nat len)%nat -> after sp x len back s k = along x (firstn k (order len back)) s.
    Proof.
      induction k as [|k IH]; intros Hk; [reflexivity|]. cbn [after].
      rewrite (firstn_S _ _ _ (order_nth len back k ltac:(lia))). unfold along. rewrite fold_left_app. cbn [fold_left]. f_equal.
      rewrite IH by lia. reflexivity.
    Qed.
    Lemma order_In len back t : In t (order len back) -> t < len.
    Proof. unfold order. destruct back; [rewrite <- in_rev|]; apply upto_In. Qed.
    Lemma run_cell_ok len back s s' xv x : (forall t, t < len -> agree I (xv t) (x t)) -> rel s s' ->
      (forall t, t < len -> exists st, nth_error (fst (run_cell step back s (map xv (upto len)))) (N.to_nat t) = Some st /\
        rel st (after sp x len back s' (steps_at len back t))) /\
      rel (snd (run_cell step back s (map xv (upto len)))) (after sp x len back s' (N.to_nat len)).
    Proof.
      intros Hx Hr. unfold run_cell.
      replace (if back then rev (map xv (upto len)) else map xv (upto len)) with (map xv (order len back)) by (unfold order; destruct back; [apply map_rev|reflexivity]).
      assert (Hx' : forall t, In t (order len back) -> agree I (xv t) (x t)) by (intros t Ht; apply Hx; eapply order_In; exact Ht).
      assert (Hl : length (scan step s (map xv (order len back))) = N.to_nat len).
      { rewrite <- (order_len len back). clear. revert s. induction (order len back) as [|t l IH]; intros s; [reflexivity|]. cbn. rewrite IH. reflexivity. }
      cbn [fst snd]. split.
      - intros t Ht.
        assert (Hn : nth_error (if back then rev (scan step s (map xv (order len back))) else scan step s (map xv (order len back))) (N.to_nat t) =
                     nth_error (scan step s (map xv (order len back))) (pred (steps_at len back t))).
        { unfold steps_at. destruct back; [rewrite nth_rev by lia; rewrite Hl|]; f_equal; lia. }
        rewrite Hn. assert (Hst : (steps_at len back t = Datatypes.S (pred (steps_at len back t)) /\ steps_at len back t <= N.to_nat len)%nat)
          by (unfold steps_at; destruct back; lia).
        destruct Hst as [Hst Hle]. destruct (scan_nth xv x (order len back) s s' (pred (steps_at len back t)) Hx' Hr) as (st & E & Hrs); [rewrite order_len; lia|].
        exists st. split; [exact E|]. rewrite after_along by exact Hle. rewrite Hst. exact Hrs.
      - rewrite after_along by lia. rewrite (firstn_all2 (order len back)) by (rewrite order_len; lia). apply scan_last; assumption.
    Qed.
    Lemma run_batch_ok bf len batch back s0 s0' X x :
      (forall b t, b < batch -> t < len -> agree I (fun i => at_ zero X (shape3 bf t b i)) (x b t)) ->
      (forall b, b < batch -> rel (s0 b) (s0' b)) ->
      exists y h c, run_batch zero H bf len batch step back s0 X = Some (y, h, c) /\
        (twf y /\ tshape y = shape3 bf len batch H /\ twf h /\ tshape h = [batch; H] /\ twf c /\ tshape c = [batch; H]) /\
        (forall t b j, t < len -> b < batch -> j < H -> get y (shape3 bf t b j) = Some (ph (after sp (x b) len back (s0' b) (steps_at len back t)) j)) /\
        (forall b j, b < batch -> j < H -> get h [b; j] = Some (ph (after sp (x b) len back (s0' b) (N.to_nat len)) j)) /\
        (forall b j, b < batch -> j < H -> get c [b; j] = Some (pc (after sp (x b) len back (s0' b) (N.to_nat len)) j)).
    Proof.
      intros Hx Hr.
      assert (K : forall b, b < batch -> _) by (intros b Hb; exact (run_cell_ok len back (s0 b) (s0' b) (fun t i => at_ zero X (shape3 bf t b i)) (x b) (fun t => Hx b t Hb) (Hr b Hb))).
      unfold run_batch.
      match goal with |- context [tab [batch; H] ?f] => destruct (tab_gets [batch; H] f) as (h & Hh & Wh & Sh & Gh) end.
      { intros idx Hi. destruct (valid2 _ _ _ Hi) as (b & j & -> & Hb & Hj). eexists. reflexivity. }
      rewrite Hh.
      match goal with |- context [tab [batch; H] ?f] => destruct (tab_gets [batch; H] f) as (c & Hc & Wc & Sc & Gc) end.
      { intros idx Hi. destruct (valid2 _ _ _ Hi) as (b & j & -> & Hb & Hj). eexists. reflexivity. }
      rewrite Hc.
      assert (Ghc : (forall b j, b < batch -> j < H -> get h [b; j] = Some (ph (after sp (x b) len back (s0' b) (N.to_nat len)) j)) /\
                    (forall b j, b < batch -> j < H -> get c [b; j] = Some (pc (after sp (x b) len back (s0' b) (N.to_nat len)) j))).
      { split; intros b j Hb Hj; [rewrite (Gh [b; j]) by (apply is_valid2; assumption)|rewrite (Gc [b; j]) by (apply is_valid2; assumption)]; f_equal; apply (proj2 (K b Hb)); exact Hj. }
      destruct bf.
      - match goal with |- context [tab [batch; len; H] ?f] => destruct (tab_gets [batch; len; H] f) as (y & Hy & Wy & Sy & Gy) end.
        { intros idx Hi. destruct (valid3 _ _ _ _ Hi) as (b & t & j & -> & Hb & Ht & Hj). destruct (proj1 (K b Hb) t Ht) as (st & E & _). cbn [shape3] in E. rewrite E. eexists. reflexivity. }
        rewrite Hy. exists y, h, c. split; [reflexivity|]. split; [repeat split; assumption|]. split; [|exact Ghc].
        intros t b j Ht Hb Hj. cbn [shape3]. rewrite (Gy [b; t; j]) by (apply is_valid3; assumption). destruct (proj1 (K b Hb) t Ht) as (st & E & Hs). cbn [shape3] in E. rewrite E.
        cbn [option_map]. f_equal. apply (proj1 Hs). exact Hj.
      - match goal with |- context [tab [len; batch; H] ?f] => destruct (tab_gets [len; batch; H] f) as (y & Hy & Wy & Sy & Gy) end.
        { intros idx Hi. destruct (valid3 _ _ _ _ Hi) as (t & b & j & -> & Ht & Hb & Hj). destruct (proj1 (K b Hb) t Ht) as (st & E & _). cbn [shape3] in E. rewrite E. eexists. reflexivity. }
        rewrite Hy. exists y, h, c. split; [reflexivity|]. split; [repeat split; assumption|]. split; [|exact Ghc].
        intros t b j Ht Hb Hj. cbn [shape3]. rewrite (Gy [t; b; j]) by (apply is_valid3; assumption). destruct (proj1 (K b Hb) t Ht) as (st & E & Hs). cbn [shape3] in E. rewrite E.
        cbn [option_map]. f_equal. apply (proj1 Hs). exact Hj.
    Qed.
  End Seq.

End Sequences.

Section Run.
  Context {T : Type} (add mul : T -> T -> T) (zero : T) (minus1 : T -> T) (act : activation -> T -> T).
  Hypothesis add_assoc : forall a b c, add a (add b c) = add (add a b) c.
  Hypothesis add_comm : forall a b, add a b = add b a.
  Hypothesis add_zero : forall a, add a zero = a.
  Notation vec := (N -> T).

  (** ** The gates *)
  Lemma sum_agree n f g : (forall i, i < n -> f i = g i) -> sum add zero n f = sum add zero n g.
  Proof. intros E. unfold sum. f_equal. apply map_ext_in. intros i Hi. apply E. apply upto_In. exact Hi. Qed.
  Definition gate_ok (k : rkind) (w : @weights T) (d g : N) (ga : gate) : Prop :=
    (forall x x' j, agree (input w) x x' -> j < hidden w ->
       linear_run add mul zero (ga_x ga) x j = add (xW add mul zero w d g x' j) (match k with KGru => Wb zero w d g j | _ => add (Wb zero w d g j) (Rb zero w d g j) end)) /\
    (forall h h' j, agree (hidden w) h h' -> j < hidden w ->
       linear_run add mul zero (ga_h ga) h j = add (hR add mul zero w d g h' j) (match k with KGru => Rb zero w d g j | _ => zero end)).
  Lemma gate_run_ok k w d g ga x x' h h' j : gate_ok k w d g ga -> agree (input w) x x' -> agree (hidden w) h h' -> j < hidden w ->
    gate_run add mul zero ga x h j = pre add mul zero w d g x' h' j.
  Proof.
    intros [Gx Gh] Hx Hh Hj. unfold gate_run, pre. rewrite (Gx x x' j Hx Hj), (Gh h h' j Hh Hj).
    set (a := xW add mul zero w d g x' j). set (b := hR add mul zero w d g h' j). set (p := Wb zero w d g j). set (q := Rb zero w d g j).
    assert (E : add (add a (add p q)) b = add (add (add a b) p) q).
    { rewrite <- !add_assoc. f_equal. rewrite (add_assoc p q b), (add_comm (add p q) b). reflexivity. }
    destruct k; [rewrite add_zero; exact E| |rewrite add_zero; exact E].
    rewrite <- !add_assoc. f_equal. rewrite (add_assoc p b q), (add_comm p b), <- add_assoc. reflexivity.
  Qed.
  Lemma gru_parts w d g ga x x' h h' j : gate_ok KGru w d g ga -> agree (input w) x x' -> agree (hidden w) h h' -> j < hidden w ->
    linear_run add mul zero (ga_x ga) x j = add (xW add mul zero w d g x' j) (Wb zero w d g j) /\
    linear_run add mul zero (ga_h ga) h j = add (hR add mul zero w d g h' j) (Rb zero w d g j).
  Proof. intros [Gx Gh] Hx Hh Hj. split; [apply Gx|apply Gh]; assumption. Qed.

  (** The stored tensors of a gate. *)
  Record quad := mkQ { q_iw : tensor T; q_ib : option (tensor T); q_hw : tensor T; q_hb : option (tensor T) }.
  Definition opt_entry (p : string) (o : option (tensor T)) : list (string * tensor T) := match o with Some t => [(p, t)] | None => [] end.
  Definition entries (p : string) (q : quad) : list (string * tensor T) :=
    [(p ++ ".input_transform.weight", q_iw q)%string] ++ opt_entry (p ++ ".input_transform.bias") (q_ib q) ++
    [(p ++ ".hidden_transform.weight", q_hw q)%string] ++ opt_entry (p ++ ".hidden_transform.bias") (q_hb q).
  Definition loaded (w : @weights T) (q : quad) : gate := mkGate (mkLin (input w) (q_iw q) (q_ib q)) (mkLin (hidden w) (q_hw q) (q_hb q)).
  Definition quad_shapes (w : @weights T) (q : quad) : Prop :=
    tshape (q_iw q) = [input w; hidden w] /\ tshape (q_hw q) = [hidden w; hidden w] /\
    match wB w with
    | None => q_ib q = None /\ q_hb q = None
    | Some _ => exists ib hb, q_ib q = Some ib /\ q_hb q = Some hb /\ tshape ib = [hidden w] /\ tshape hb = [hidden w]
    end.
  Lemma at_get (t : tensor T) idx v : get t idx = Some v -> at_ zero t idx = v.
  Proof. unfold at_. intros ->. reflexivity. Qed.
  Lemma at_eq (t u : tensor T) idx idx' : get t idx = get u idx' -> at_ zero t idx = at_ zero u idx'.
  Proof. unfold at_. intros ->. reflexivity. Qed.

  Lemma gate_snapshots_ok k c w D d wd rd bd prefix name g :
    weights_ok w D -> d < D -> g < gates w -> gates w = gate_count k -> rc_hidden c = hidden w -> rc_input c = input w ->
    (twf wd /\ tshape wd = [gates w * hidden w; input w] /\ forall i j, i < gates w * hidden w -> j < input w -> get wd [i; j] = get (wW w) [d; i; j]) ->
    (twf rd /\ tshape rd = [gates w * hidden w; hidden w] /\ forall i j, i < gates w * hidden w -> j < hidden w -> get rd [i; j] = get (wR w) [d; i; j]) ->
    (match wB w, bd with
     | None, None => True
     | Some B, Some b => twf b /\ tshape b = [2 * gates w * hidden w] /\ forall i, i < 2 * gates w * hidden w -> get b [i] = get B [d; i]
     | _, _ => False
     end) ->
    exists q, gate_snapshots add zero k c wd rd bd prefix (name, g) = Some (entries (prefix ++ name) q) /\ quad_shapes w q /\ gate_ok k w d g (loaded w q).
  Proof.
    intros Hok Hd Hg HG HH HI (Ww & Sw & Gw) (Wr & Sr & Gr) HB.
    assert (Hle : g * hidden w + hidden w <= gates w * hidden w) by nia.
    unfold gate_snapshots. rewrite HH, HI, <- HG. cbn [fst snd].
    destruct (slice2_ok wd _ (input w) (g * hidden w) (hidden w) Ww Sw Hle) as (iw & -> & Wiw & Siw & Giw). cbn [obind].
    destruct (slice2_ok rd _ (hidden w) (g * hidden w) (hidden w) Wr Sr Hle) as (hw & -> & Whw & Shw & Ghw).
    assert (Ex : forall x x' j, agree (input w) x x' -> j < hidden w -> sum add zero (input w) (fun i => mul (x i) (at_ zero iw [i; j])) = xW add mul zero w d g x' j).
    { intros x x' j Hx Hj. apply sum_agree. intros i Hi. rewrite (Hx i Hi). f_equal. apply at_eq. rewrite Giw by assumption. apply Gw; nia. }
    assert (Eh : forall x x' j, agree (hidden w) x x' -> j < hidden w -> sum add zero (hidden w) (fun i => mul (x i) (at_ zero hw [i; j])) = hR add mul zero w d g x' j).
    { intros x x' j Hx Hj. apply sum_agree. intros i Hi. rewrite (Hx i Hi). f_equal. apply at_eq. rewrite Ghw by assumption. apply Gr; nia. }
    destruct (wB w) as [B|] eqn:EB, bd as [b|]; try contradiction.
    - destruct HB as (Wb' & Sb & Gb).
      destruct (slice1_ok b _ (g * hidden w) (hidden w) Wb' Sb) as (wb & -> & Wwb & Swb & Gwb); [nia|].
      destruct (slice1_ok b _ (gates w * hidden w + g * hidden w) (hidden w) Wb' Sb) as (rb & -> & Wrb & Srb & Grb); [nia|]. cbn [obind].
      assert (Awb : forall j, j < hidden w -> at_ zero wb [j] = Wb zero w d g j).
      { intros j Hj. unfold Wb. rewrite EB. apply at_eq. rewrite Gwb by exact Hj. apply Gb. nia. }
      assert (Arb : forall j, j < hidden w -> at_ zero rb [j] = Rb zero w d g j).
      { intros j Hj. unfold Rb. rewrite EB. apply at_eq. rewrite Grb by exact Hj. rewrite Gb by nia. f_equal. f_equal. f_equal. lia. }
      assert (Sum : exists s, map2o add wb rb = Some s /\ tshape s = [hidden w] /\ forall j, j < hidden w -> at_ zero s [j] = add (Wb zero w d g j) (Rb zero w d g j)).
      { destruct (map2o_ok add wb rb (hidden w) Wwb Wrb Swb Srb) as (s & Es & Ws & Ss & Gs). exists s. split; [exact Es|]. split; [exact Ss|].
        intros j Hj. rewrite <- (Awb j Hj), <- (Arb j Hj).
        destruct (get_some wb [hidden w] [j] Wwb Swb ltac:(apply is_valid1; exact Hj)) as [u Hu].
        destruct (get_some rb [hidden w] [j] Wrb Srb ltac:(apply is_valid1; exact Hj)) as [v Hv].
        rewrite (at_get wb _ u Hu), (at_get rb _ v Hv). apply at_get. rewrite Gs by exact Hj. rewrite Hu, Hv. reflexivity. }
      destruct Sum as (s & -> & Ss & As).
      destruct k.
      + exists (mkQ iw (Some s) hw (Some (mkT [hidden w] (repeat zero (N.to_nat (hidden w)))))). split; [reflexivity|]. split.
        * split; [exact Siw|]. split; [exact Shw|]. rewrite EB. eexists _, _. repeat split; try reflexivity. exact Ss.
        * split; intros x x' j Hx Hj; unfold linear_run, loaded; cbn [ga_x ga_h li_in li_w li_b q_iw q_ib q_hw q_hb].
          -- rewrite (Ex x x' j Hx Hj), (As j Hj). reflexivity.
          -- rewrite (Eh x x' j Hx Hj). rewrite (at_get _ _ zero (zeros_get zero (hidden w) j Hj)). reflexivity.
      + exists (mkQ iw (Some wb) hw (Some rb)). split; [reflexivity|]. split.
        * split; [exact Siw|]. split; [exact Shw|]. rewrite EB. eexists _, _. repeat split; try reflexivity; assumption.
        * split; intros x x' j Hx Hj; unfold linear_run, loaded; cbn [ga_x ga_h li_in li_w li_b q_iw q_ib q_hw q_hb].
          -- rewrite (Ex x x' j Hx Hj), (Awb j Hj). reflexivity.
          -- rewrite (Eh x x' j Hx Hj), (Arb j Hj). reflexivity.
      + exists (mkQ iw (Some s) hw (Some (mkT [hidden w] (repeat zero (N.to_nat (hidden w)))))). split; [reflexivity|]. split.
        * split; [exact Siw|]. split; [exact Shw|]. rewrite EB. eexists _, _. repeat split; try reflexivity. exact Ss.
        * split; intros x x' j Hx Hj; unfold linear_run, loaded; cbn [ga_x ga_h li_in li_w li_b q_iw q_ib q_hw q_hb].
          -- rewrite (Ex x x' j Hx Hj), (As j Hj). reflexivity.
          -- rewrite (Eh x x' j Hx Hj). rewrite (at_get _ _ zero (zeros_get zero (hidden w) j Hj)). reflexivity.
    - cbn [obind]. exists (mkQ iw None hw None). split; [reflexivity|]. split.
      * split; [exact Siw|]. split; [exact Shw|]. rewrite EB. split; reflexivity.
      * split; intros x x' j Hx Hj; unfold linear_run, loaded; cbn [ga_x ga_h li_in li_w li_b q_iw q_ib q_hw q_hb].
        -- rewrite (Ex x x' j Hx Hj). unfold Wb, Rb. rewrite EB. destruct k; rewrite ?add_zero; reflexivity.
        -- rewrite (Eh x x' j Hx Hj). unfold Rb. rewrite EB. destruct k; rewrite add_zero; reflexivity.
  Qed.

  (** The gates of a direction. *)
  Lemma dir_snapshots_ok k c w D d prefix :
    weights_ok w D -> d < D -> gates w = gate_count k -> rc_hidden c = hidden w -> rc_input c = input w ->
    input w <> 1 -> hidden w <> 1 ->
    exists qs, dir_snapshots add zero k c (wW w) (wR w) (wB w) d prefix = Some (concat (map (fun p => entries (prefix ++ fst (fst p)) (snd p)) (combine (gate_table k) qs))) /\
      Forall2 (fun t q => quad_shapes w q /\ gate_ok k w d (snd t) (loaded w q)) (gate_table k) qs.
  Proof.
    intros Hok Hd HG HH HI I1 H1. pose proof Hok as (Ww & Sw & Wr & Sr & HB).
    assert (G1 : gates w * hidden w <> 1) by (intros E; apply N.eq_mul_1 in E; destruct E; contradiction).
    unfold dir_snapshots. rewrite HH, HI, <- HG.
    destruct (dir3_ok (wW w) D _ _ d Ww Sw Hd G1 I1) as (wd & -> & Wd & Sd & Gd). cbn [obind].
    destruct (dir3_ok (wR w) D _ _ d Wr Sr Hd G1 H1) as (rd & -> & Wrd & Srd & Grd). cbn [obind].
    assert (Hb : exists bd, (match wB w with
           | None => Some None
           | Some b => option_map Some (obind (b_slice [(d, d + 1); (0, 2 * gates w * hidden w)] b) (b_squeeze_all 1))
           end) = Some bd /\ match wB w, bd with
             | None, None => True
             | Some B, Some b => twf b /\ tshape b = [2 * gates w * hidden w] /\ forall i, i < 2 * gates w * hidden w -> get b [i] = get B [d; i]
             | _, _ => False
             end).
    { destruct (wB w) as [B|] eqn:EB; [|exists None; split; [reflexivity|exact I]]. destruct (HB B eq_refl) as [WB SB].
      destruct (dir2_ok B D _ d WB SB Hd) as (b & -> & Wb' & Sb & Gb); [lia|]. exists (Some b). split; [reflexivity|]. repeat split; assumption. }
    destruct Hb as (bd & -> & Hb). cbn [obind].
    assert (K : forall l, (forall t, In t l -> snd t < gates w) ->
      exists qs, mapo (gate_snapshots add zero k c wd rd bd prefix) l = Some (map (fun p => entries (prefix ++ fst (fst p)) (snd p)) (combine l qs)) /\
        Forall2 (fun t q => quad_shapes w q /\ gate_ok k w d (snd t) (loaded w q)) l qs).
    { induction l as [|[name g] l IH]; intros Hl; [exists []; split; [reflexivity|constructor]|].
      destruct (gate_snapshots_ok k c w D d wd rd bd prefix name g) as (q & Eq & Hq & Gq); try assumption; [apply (Hl (name, g)); left; reflexivity|repeat split; assumption|repeat split; assumption|].
      destruct IH as (qs & Eqs & Hqs); [intros; apply Hl; right; assumption|].
      exists (q :: qs). cbn [mapo]. rewrite Eq, Eqs. split; [reflexivity|]. constructor; [split; assumption|exact Hqs]. }
    destruct (K (gate_table k)) as (qs & -> & Hqs).
    { rewrite HG. destruct k; cbn; intros t Ht; repeat (destruct Ht as [<-|Ht]; [cbn; lia|]); contradiction. }
    exists qs. split; [reflexivity|exact Hqs].
  Qed.
End Run.
