(** RNN, GRU and LSTM: the configuration, the stored gates and the outputs. *)
From Coq Require Import Lia ZifyBool ZifyNat ZifyN.
From Verif Require Export Recur_Run.
From Verif Require Import Tensor_Proofs Lines_Proofs Index_Model Linear_Model Linear_Proofs.
Import Recur_Spec Tensor_Spec.
Local Open Scope N_scope.

(** ** The configuration *)
Lemma parse_direction_name d : parse_direction (direction_name d) = IOk d.
Proof. destruct d; reflexivity. Qed.
Lemma parse_activation_name a : parse_activation (activation_name a) = IOk a.
Proof. destruct a; reflexivity. Qed.
Lemma parse_names l : parse_all (map activation_name l) = IOk l.
Proof. induction l as [|a l IH]; [reflexivity|]. cbn [map parse_all]. rewrite parse_activation_name, IH. reflexivity. Qed.
Lemma acts_eqb_refl l : acts_eqb l l = true.
Proof. induction l as [|a l IH]; [reflexivity|]. cbn. rewrite act_eqb_refl. exact IH. Qed.
Lemma acts_eqb_eq : forall a b, acts_eqb a b = true -> a = b.
Proof.
  induction a as [|x a IH]; intros [|y b] H; try discriminate; [reflexivity|]. cbn in H. apply andb_true_iff in H. destruct H as [H K].
  rewrite (act_eqb_eq _ _ H), (IH _ K). reflexivity.
Qed.
Lemma acts_config_ok k n dir acts : activations_attr n dir (default_acts k) acts -> acts_config k n dir = IOk acts /\ length acts = length (default_acts k).
Proof.
  unfold activations_attr, acts_config. destruct (get_attr n "activations") as [a|]; [|intros ->; split; reflexivity].
  destruct a; try contradiction. intros [E L]. split; [|exact L].
  assert (Hm : length (map activation_name acts) = length (default_acts k)) by (rewrite map_length; exact L).
  destruct ss as [|s0 ss].
  { destruct acts as [|a acts]; [destruct k; cbn in L; discriminate|]. exfalso. destruct (directions dir =? 2); discriminate. }
  rewrite E. clear E s0 ss.
  set (m := map activation_name acts) in *.
  assert (Hf : forall r, firstn (length (default_acts k)) (m ++ r) = m) by (intros r; rewrite <- Hm, firstn_app, Nat.sub_diag, firstn_all; cbn; apply app_nil_r).
  assert (Hs : forall r, skipn (length (default_acts k)) (m ++ r) = r) by (intros r; rewrite <- Hm, skipn_app, Nat.sub_diag, skipn_all; reflexivity).
  assert (Hp : parse_all m = IOk acts) by apply parse_names.
  destruct dir; cbn [directions N.eqb Pos.eqb bidirectional andb].
  - replace (length m <? length (default_acts k))%nat with false by lia. pose proof (Hf []) as E. rewrite app_nil_r in E. rewrite E, Hp. reflexivity.
  - replace (length m <? length (default_acts k))%nat with false by lia. pose proof (Hf []) as E. rewrite app_nil_r in E. rewrite E, Hp. reflexivity.
  - rewrite app_length. replace (length m + length m <? length (default_acts k))%nat with false by lia. rewrite Hf, Hs, Hp. cbn [ibind].
    replace (2 * length (default_acts k) <=? length m + length m)%nat with true by lia.
    pose proof (Hf []) as E. rewrite app_nil_r in E. rewrite E, Hp. cbn [ibind]. rewrite acts_eqb_refl. reflexivity.
Qed.

Section Config.
  Context {T : Type} (value : arg -> option (tensor T)) (e : string -> option (tensor T)).
  Lemma has_given n i : has_input n i = match given n i with Some _ => true | None => false end.
  Proof. unfold has_input, given. destruct (nth_error (ninputs n) i) as [a|]; [|reflexivity]. destruct (is_optional a); reflexivity. Qed.
  Lemma has_optional look n i r (o : option (tensor T)) : optional_input look n i r o -> has_input n i = (if o then true else false).
  Proof. unfold optional_input. rewrite has_given. destruct (given n i); [intros (t & -> & _); reflexivity|intros ->; reflexivity]. Qed.
  Lemma size_ok x aw (W : tensor T) a b c : value aw = Some W -> tshape W = [a; b; c] -> typed aw 3 W -> input_size value x aw = Some c.
  Proof.
    intros Hv Hs (ty & Et & _ & Hty). unfold input_size. rewrite Et, Hv, Hs. destruct (tt_shape ty) as [s|]; [|reflexivity].
    pose proof (Hty s eq_refl) as F. rewrite Hs in F. inversion F as [|o1 ? s1 ? H1 F1]; subst. inversion F1 as [|o2 ? s2 ? H2 F2]; subst.
    inversion F2 as [|o3 ? s3 ? H3 F3]; subst. inversion F3; subst. destruct H3 as [->| ->]; reflexivity.
  Qed.
  Lemma config_ok k n layout dir len batch X w h0 flag acts :
    recurrent_inputs value e n layout dir len batch X w h0 ->
    get_attr n "hidden_size" = Some (AInt (Z.of_N (hidden w))) -> hidden w < 18446744073709551616 -> direction_attr n dir -> layout_attr n layout ->
    get_attr n "clip" = None -> activations_attr n dir (default_acts k) acts ->
    (if has_coupling k then flag_attr n (flag_name k) flag else flag = false) ->
    (k = KLstm -> given n 7 = None) ->
    recur_config value k n = IOk (mkRC (input w) (hidden w) dir (if wB w then true else false) (if h0 then true else false)
                                       (match k with KLstm => has_input n 6 | _ => false end) false layout false flag acts) /\
    length acts = length (default_acts k).
  Proof.
    intros ((x & aw & ar & rest & Hi & HX & Tx & HW & Tw & HR & Tr) & WX & SX & (Ww & Sw & _) & HB & H4 & H5 & I5 & Hopt) Hh Hlt Hdir Hlay Hclip Hact Hflag H7.
    destruct (acts_config_ok k n dir acts Hact) as [Ea La]. split; [|exact La].
    unfold recur_config. rewrite Hi. rewrite (size_ok x aw (wW w) _ _ _ HW Sw Tw). cbn [ibind]. rewrite Hh. cbn [attr_i64 ibind].
    replace (to_usize (Z.of_N (hidden w))) with (hidden w) by (unfold to_usize; rewrite Z.mod_small by lia; lia).
    assert (Ed : (match get_attr n "direction" with None => IOk Forward | Some (AString s) => parse_direction s | Some _ => IPanic end) = IOk dir).
    { unfold direction_attr in Hdir. destruct (get_attr n "direction") as [a|]; [|subst; reflexivity]. destruct a; try contradiction. subst. apply parse_direction_name. }
    rewrite Ed. cbn [ibind].
    assert (El : exists z, attr_i64_or n "layout" 0 = IOk z /\ (z =? 1)%Z = layout).
    { unfold layout_attr in Hlay. unfold attr_i64_or. destruct (get_attr n "layout") as [a|]; [|exists 0%Z; split; [reflexivity|subst; reflexivity]].
      destruct a; try contradiction. exists z. split; [reflexivity|]. subst z. destruct layout; reflexivity. }
    destruct El as (z & -> & Ez). cbn [ibind]. unfold clip_config. rewrite Hclip. cbn [ibind].
    assert (Ef : (if has_coupling k then ibind (attr_i64_or n (flag_name k) 0) (fun z => IOk (negb (z =? 0)%Z)) else IOk false) = IOk flag).
    { destruct (has_coupling k); [|subst; reflexivity]. unfold flag_attr in Hflag. unfold attr_i64_or. destruct (get_attr n (flag_name k)) as [a|]; [|subst; reflexivity].
      destruct a; try contradiction. cbn. subst. reflexivity. }
    rewrite Ef, Ea. cbn [ibind]. rewrite (has_optional _ _ _ _ _ HB), (has_optional _ _ _ _ _ H5), Ez.
    replace (match k with KLstm => has_input n 7 | _ => false end) with false; [reflexivity|].
    destruct k; try reflexivity. rewrite has_given, (H7 eq_refl). reflexivity.
  Qed.
  Lemma rank3_ok n i a (t : tensor T) : nth_error (ninputs n) i = Some a -> typed a 3 t -> exists ty, aty a = TensorT ty /\ rank3 n i = IOk ty.
  Proof. intros Hi (ty & Et & Er & _). exists ty. split; [exact Et|]. unfold rank3. rewrite Hi, Et, Er. reflexivity. Qed.
  Lemma optional_rank_ok look n i r (o : option (tensor T)) : optional_input look n i r o -> optional_rank n i r = IOk tt.
  Proof.
    unfold optional_input, optional_rank, given. destruct (nth_error (ninputs n) i) as [a|]; [|reflexivity]. destruct (is_optional a); [reflexivity|].
    intros (t & _ & _ & ty & -> & -> & _). rewrite N.eqb_refl. reflexivity.
  Qed.
  (** The stored tensors. *)
  Lemma data_W n layout dir len batch X w h0 : recurrent_inputs value e n layout dir len batch X w h0 ->
    obind (nth_error (ninputs n) 1) value = Some (wW w) /\ obind (nth_error (ninputs n) 2) value = Some (wR w) /\ obind (nth_error (ninputs n) 3) value = wB w.
  Proof.
    intros ((x & aw & ar & rest & Hi & HX & Tx & HW & Tw & HR & Tr) & WX & SX & _ & HB & H4 & H5 & I5 & Hopt).
    rewrite Hi. cbn [nth_error obind]. split; [exact HW|]. split; [exact HR|].
    unfold optional_input, given in HB. rewrite Hi in HB. cbn [nth_error] in HB. destruct rest as [|b rest]; cbn [nth_error] in *; [symmetry; exact HB|].
    cbn [obind]. destruct (is_optional b) eqn:Eb; [rewrite HB; apply Hopt; exact Eb|]. destruct HB as (t & -> & Hv & _). exact Hv.
  Qed.
End Config.

Section Snapshots.
  Context {T : Type} (add mul : T -> T -> T) (zero : T).
  Hypothesis add_assoc : forall a b c, add a (add b c) = add (add a b) c.
  Hypothesis add_comm : forall a b, add a b = add b a.
  Hypothesis add_zero : forall a, add a zero = a.
  Variable value : arg -> option (tensor T).
  Implicit Types w : @weights T.
  Definition gate_list (k : rkind) (prefix : string) (qs : list quad) : list (string * tensor T) :=
    concat (map (fun p => entries (prefix ++ fst (fst p)) (snd p)) (combine (gate_table k) qs)).
  Ltac open_gates F :=
    repeat match type of F with Forall2 _ (_ :: _) ?l =>
      let q := fresh "q" in let r := fresh "qs" in let H := fresh "Q" in let F' := fresh "F" in
      inversion F as [|? q ? r H F' E1 E2]; clear F; subst; rename F' into F end;
    inversion F; clear F; subst.
  Ltac open_shape w :=
    repeat match goal with
    | H : (quad_shapes w ?q /\ _) |- _ =>
        let S := fresh "S" in let G := fresh "G" in let S' := fresh "S" in destruct H as [S G]; pose proof S as S'; destruct S' as (_ & _ & S')
    end;
    destruct (wB w);
    repeat match goal with
    | H : exists ib hb, q_ib ?q = _ /\ _ |- _ => destruct H as (? & ? & ? & ? & _ & _)
    | H : q_ib ?q = None /\ q_hb ?q = None |- _ => destruct H
    end.
  Ltac found :=
    cbn [snd] in *; let name := fresh in let g := fresh in let Hin := fresh in
    intros name g Hin; cbn [gate_table In] in Hin;
    repeat (destruct Hin as [Hin|Hin]; [injection Hin as <- <-; eexists; split; [|split; [|eassumption]; eassumption];
      unfold finds, gate_list, entries; cbn [gate_table combine map fst snd concat app];
      repeat match goal with H : q_ib ?q = _ |- _ => rewrite !H; clear H | H : q_hb ?q = _ |- _ => rewrite !H; clear H end;
      cbn; repeat split; congruence|]); contradiction.
  Lemma found_single k w d qs : Forall2 (fun t q => quad_shapes w q /\ gate_ok add mul zero k w d (snd t) (loaded w q)) (gate_table k) qs ->
    gates_found add mul zero k w (gate_list k "" qs) "" d.
  Proof. intros F. destruct k; cbn [gate_table] in F; open_gates F; open_shape w; found. Qed.
  Lemma entries_prefix pre p (q : @quad T) : entries (pre ++ p) q = map (fun pt => (pre ++ fst pt, snd pt)%string) (entries p q).
  Proof. unfold entries. rewrite !map_app. cbn [map fst snd]. rewrite !append_assoc. destruct (q_ib q), (q_hb q); cbn [opt_entry map fst snd]; rewrite ?append_assoc; reflexivity. Qed.
  Lemma gate_list_prefix k pre (qs : list (@quad T)) : gate_list k pre qs = map (fun pt => (pre ++ fst pt, snd pt)%string) (gate_list k "" qs).
  Proof.
    unfold gate_list. rewrite concat_map, map_map. f_equal. apply map_ext. intros [t q]. cbn [fst snd]. apply entries_prefix.
  Qed.
  Lemma sget_prefix pre (l : list (string * tensor T)) p : sget (map (fun pt => (pre ++ fst pt, snd pt)%string) l) (pre ++ p) = sget l p.
  Proof. induction l as [|[a t] l IH]; [reflexivity|]. cbn [map sget fst snd]. rewrite eqb_prefix, IH. reflexivity. Qed.
  Lemma sget_other pre pre' (l : list (string * tensor T)) p : (forall a b, String.eqb (pre ++ a) (pre' ++ b) = false) ->
    sget (map (fun pt => (pre ++ fst pt, snd pt)%string) l) (pre' ++ p) = None.
  Proof. intros Hne. induction l as [|[a t] l IH]; [reflexivity|]. cbn [map sget fst snd]. rewrite Hne. exact IH. Qed.
  Lemma sget_app (a b : list (string * tensor T)) p : sget (a ++ b) p = match sget a p with Some t => Some t | None => sget b p end.
  Proof. induction a as [|[x t] a IH]; [reflexivity|]. cbn [app sget]. destruct (String.eqb x p); [reflexivity|exact IH]. Qed.
  Lemma finds_ext (l l' : list (string * tensor T)) p p' q : (forall s, sget l' (p' ++ s) = sget l (p ++ s)) -> finds l p q -> finds l' p' q.
  Proof. intros E (A & B & C & D). unfold finds. rewrite !E. auto. Qed.
  Lemma found_forward k w d qs ps : Forall2 (fun t q => quad_shapes w q /\ gate_ok add mul zero k w d (snd t) (loaded w q)) (gate_table k) qs ->
    gates_found add mul zero k w (gate_list k "forward." qs ++ gate_list k "reverse." ps) "forward." d.
  Proof.
    intros F name g Hin. destruct (found_single k w d qs F name g Hin) as (q & Fq & Sq & Gq). exists q. split; [|split; assumption].
    eapply finds_ext; [|exact Fq]. intros s. rewrite sget_app, (gate_list_prefix k "forward."), (gate_list_prefix k "reverse."), append_assoc, sget_prefix.
    rewrite sget_other by reflexivity. cbn [append]. destruct (sget _ _); reflexivity.
  Qed.
  Lemma found_reverse k w d qs ps : Forall2 (fun t q => quad_shapes w q /\ gate_ok add mul zero k w d (snd t) (loaded w q)) (gate_table k) qs ->
    gates_found add mul zero k w (gate_list k "forward." ps ++ gate_list k "reverse." qs) "reverse." d.
  Proof.
    intros F name g Hin. destruct (found_single k w d qs F name g Hin) as (q & Fq & Sq & Gq). exists q. split; [|split; assumption].
    eapply finds_ext; [|exact Fq]. intros s. rewrite sget_app, (gate_list_prefix k "forward."), (gate_list_prefix k "reverse."), append_assoc, sget_prefix.
    rewrite sget_other by reflexivity. reflexivity.
  Qed.
  Lemma snapshots_ok k c n field w e layout len batch X h0 :
    recurrent_inputs value e n layout (rc_dir c) len batch X w h0 -> gates w = gate_count k -> rc_hidden c = hidden w -> rc_input c = input w ->
    input w <> 1 -> hidden w <> 1 ->
    exists l, snapshots add zero value k c n field = Some (stored field l) /\
      if bidirectional (rc_dir c) then gates_found add mul zero k w l "forward." 0 /\ gates_found add mul zero k w l "reverse." 1
      else gates_found add mul zero k w l "" 0.
  Proof.
    intros Hin HG HH HI I1 H1. destruct (data_W value e n layout (rc_dir c) len batch X w h0 Hin) as (E1 & E2 & E3).
    destruct Hin as (_ & _ & _ & Hok & _). unfold snapshots. rewrite E1, E2, E3.
    destruct (bidirectional (rc_dir c)) eqn:Eb.
    - assert (D2 : directions (rc_dir c) = 2) by (destruct (rc_dir c); try discriminate; reflexivity). rewrite D2 in Hok.
      destruct (dir_snapshots_ok add mul zero (fun v => v) (fun _ v => v) add_assoc add_comm add_zero k c w 2 0 "forward."%string Hok ltac:(lia) HG HH HI I1 H1) as (qf & -> & Ff).
      destruct (dir_snapshots_ok add mul zero (fun v => v) (fun _ v => v) add_assoc add_comm add_zero k c w 2 1 "reverse."%string Hok ltac:(lia) HG HH HI I1 H1) as (qr & -> & Fr).
      eexists. split; [reflexivity|]. split; [exact (found_forward k w 0 qf qr Ff)|exact (found_reverse k w 1 qr qf Fr)].
    - assert (D1 : directions (rc_dir c) = 1) by (destruct (rc_dir c); try discriminate; reflexivity). rewrite D1 in Hok.
      destruct (dir_snapshots_ok add mul zero (fun v => v) (fun _ v => v) add_assoc add_comm add_zero k c w 1 0 ""%string Hok ltac:(lia) HG HH HI I1 H1) as (q & -> & F).
      eexists. split; [reflexivity|]. exact (found_single k w 0 q F).
  Qed.
End Snapshots.
