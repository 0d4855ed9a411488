(** What a matched attention pattern computes. *)
From Flocq Require Import Core BinarySingleNaN.
From Verif Require Import IR_Model IR_Spec IR_Proofs Attention_Spec Attention_Model Attention_Cond Attention_Proofs.
From Verif Require Import Tensor_Spec Tensor_Proofs.
From Coq Require Import Lra Lia ZifyBool ZifyNat ZifyN.
Local Open Scope N_scope.

Lemma ebind_Done {A B} (x : ev A) (f : A -> ev B) y : ebind x f = Done y -> exists a, x = Done a /\ f a = Done y.
Proof. destruct x; cbn; intros H; try discriminate. eauto. Qed.
Lemma if_some_Done {A B} (x : ev A) (f : A -> ev B) g y : if_some x f g = Done y ->
  (exists a, x = Done a /\ f a = Done y) \/ (x = Skip /\ g = Done y).
Proof. destruct x; cbn; intros H; try discriminate; eauto. Qed.
Lemma try_Done {A} (x : option A) y : try x = Done y -> x = Some y.
Proof. destruct x; cbn; intros H; try discriminate. congruence. Qed.
Lemma input_Done n k a : input n k = Done a -> nth_error (ninputs n) k = Some a.
Proof. unfold input. destruct (nth_error (ninputs n) k); intros H; try discriminate. congruence. Qed.
Lemma output0_Done n o : output0 n = Done o -> In o (noutputs n).
Proof. unfold output0. destruct (noutputs n); intros H; try discriminate. left. congruence. Qed.

Lemma indexed_In {A} (l : list A) : forall k i x, In (i, x) (indexed k l) -> exists j, i = (k + j)%nat /\ nth_error l j = Some x.
Proof.
  induction l as [|a l IH]; intros k i x H; [destruct H|]. destruct H as [E|H].
  - injection E as <- <-. exists 0%nat. split; [lia|reflexivity].
  - destruct (IH _ _ _ H) as (j & -> & Hj). exists (S j). split; [lia|exact Hj].
Qed.
Lemma producer_ok nodes x i n : producer nodes x = Some (i, n) -> nth_error nodes i = Some n /\ In n nodes /\ In x (out_names n).
Proof.
  unfold producer. intros H. apply find_some in H. destruct H as [Hin Hx]. apply in_rev in Hin.
  apply indexed_In in Hin. destruct Hin as (j & -> & Hj). cbn [snd] in Hx. apply mem_str_In in Hx.
  split; [exact Hj|]. split; [eapply nth_error_In; exact Hj|exact Hx].
Qed.

Definition sub {V} (e e' : string -> option V) : Prop := forall x v, e x = Some v -> e' x = Some v.

Lemma final_eq (Q K V Z : rt) b h m n d e0 s bias :
  (forall i j u c, i < b -> j < h -> u < m -> c < n ->
    rd Z [i; j; u; c] = (total d (fun t => rd Q [i; j; u; t] * rd K [i; j; c; t]) * s + bias [i; j; u; c])%R) ->
  mk4 b h m e0 (fun i j r c => total n (fun t => rd (mk4 b h m n (fun i j r c => soft n (fun k => rd Z [i; j; r; k]) c)) [i; j; r; t] * rd V [i; j; t; c])%R)
  = attended b h m n d e0 s bias Q K V.
Proof.
  intros H. unfold attended. apply mk4_ext. intros i j r c Hi Hj Hr Hc. apply total_ext. intros t Ht.
  rewrite mk4_rd by assumption. f_equal. apply soft_ext; [|exact Ht]. intros k Hk. apply H; assumption.
Qed.

(** The structure of a match. *)
Inductive matched (scalar : arg -> reading) (nodes : list rnode) (sm : rnode) : list (nat * rnode) -> Prop :=
  | matched_intro si x mask scale qi qk q k sc extras so fi fm f0 v :
      nth_error (ninputs sm) 0 = Some si -> 2 <= ty_rank (aty si) ->
      softmax_axis sm (ty_rank (aty si)) = Done (Z.of_N (ty_rank (aty si)) - 1)%Z ->
      upstream scalar nodes (aname si) = Done (x, mask, scale) ->
      producer nodes x = Some (qi, qk) -> ntype qk = "MatMul"%string ->
      (exists o, output0 qk = Done o /\ single_use nodes (aname o) = true) ->
      ((exists q0 pre, standard_k scalar nodes qk = Done (q0, k, pre) /\ extras = [] /\
          ((exists s, scale = None /\ pre = Some (q, s) /\ sc = Some s) \/ (q = q0 /\ sc = scale))) \/
       (exists pre, prescaled_qk scalar nodes qk qi = Done (q, k, pre, extras) /\
          sc = match pre with Some _ => pre | None => scale end)) ->
      ty_rank (aty q) = 4 -> ty_rank (aty k) = 4 -> In so (noutputs sm) ->
      nth_error nodes fi = Some fm -> ntype fm = "MatMul"%string ->
      nth_error (ninputs fm) 0 = Some f0 -> aname f0 = aname so -> nth_error (ninputs fm) 1 = Some v -> ty_rank (aty v) = 4 ->
      consumers nodes (aname so) = [fi] ->
      matched scalar nodes sm (extras ++ [(fi, attention_node fm q k v mask sc)]).

Lemma match_inv scalar nodes sm reps : match_sdpa scalar nodes sm = Done reps -> matched scalar nodes sm reps.
Proof.
  unfold match_sdpa. intros H.
  apply ebind_Done in H. destruct H as (si & Hsi & H). apply try_Done in Hsi. cbv zeta in H.
  destruct (N.ltb_spec (ty_rank (aty si)) 2) as [|Hr2]; [discriminate|].
  apply ebind_Done in H. destruct H as (ax & Hax & H).
  destruct (Z.eqb_spec ax (Z.of_N (ty_rank (aty si)) - 1)) as [->|]; cbn [negb] in H; [|discriminate].
  apply ebind_Done in H. destruct H as ([[x mask] scale] & Hup & H).
  apply ebind_Done in H. destruct H as ([qi qk] & Hqk & H). apply try_Done in Hqk. cbn [fst snd] in H.
  destruct (String.eqb_spec (ntype qk) "MatMul") as [Hmm|]; cbn [negb] in H; [|discriminate].
  apply ebind_Done in H. destruct H as (qo & Hqo & H). destruct (single_use nodes (aname qo)) eqn:Hsu; cbn [negb] in H; [|discriminate].
  apply ebind_Done in H. destruct H as ([[[q k] sc] extras] & Hqkp & H).
  destruct (N.eqb_spec (ty_rank (aty q)) 4) as [Hq4|]; cbn [andb negb] in H; [|discriminate].
  destruct (N.eqb_spec (ty_rank (aty k)) 4) as [Hk4|]; cbn [negb] in H; [|discriminate].
  apply ebind_Done in H. destruct H as (so & Hso & H). apply output0_Done in Hso.
  destruct (consumers nodes (aname so)) as [|fi [|? ?]] eqn:Hcons; try discriminate.
  apply ebind_Done in H. destruct H as (fm & Hfm & H).
  destruct (nth_error nodes fi) as [fm'|] eqn:Hfi; [|discriminate]. injection Hfm as ->.
  destruct (String.eqb_spec (ntype fm) "MatMul") as [Hfmt|]; cbn [negb] in H; [|discriminate].
  apply ebind_Done in H. destruct H as (f0 & Hf0 & H). apply input_Done in Hf0.
  destruct (String.eqb_spec (aname f0) (aname so)) as [Hf0n|]; cbn [negb] in H; [|discriminate].
  apply ebind_Done in H. destruct H as (v & Hv & H). apply input_Done in Hv.
  destruct (N.eqb_spec (ty_rank (aty v)) 4) as [Hv4|]; cbn [negb] in H; [|discriminate]. injection H as <-.
  eapply matched_intro; eauto.
  apply if_some_Done in Hqkp. destruct Hqkp as [([[q0 k0] pre] & Hs & E)|[_ E]].
  - left. destruct scale as [s|]; [injection E as <- <- <- <-; eauto 10|].
    destruct pre as [[qr s]|]; injection E as <- <- <- <-; eauto 10.
  - right. apply ebind_Done in E. destruct E as ([[[q0 k0] pre] ex] & Hp & E). injection E as <- <- <- <-. eauto.
Qed.

Section Match.
  Variable scalar : arg -> reading.
  Variable sem : rsem.
  Variable static : N -> option rt.
  Variables (nodes nodes' : list rnode) (ef e : string -> option rt).
  Hypothesis laws : attention_laws sem.
  Hypothesis Hapart : apart nodes.
  Hypothesis G : attention_graph scalar static nodes nodes' ef.
  Hypothesis Hsub : sub e ef.
  Hypothesis Hran : forall n x v, In n nodes -> In x (out_names n) -> e x = Some v -> holds sem static e n.
  Notation value i v := (arg_eval static e i = Some (Some v)).

  Lemma arg_sub a ov : arg_eval static e a = Some ov -> arg_eval static ef a = Some ov.
  Proof.
    unfold arg_eval. destruct (asrc a); auto; destruct (e (aname a)) as [v|] eqn:E; cbn; try discriminate;
      intros H; rewrite (Hsub _ _ E); exact H.
  Qed.
  Lemma value_eq a v w : value a v -> arg_eval static ef a = Some (Some w) -> v = w.
  Proof. intros H1 H2. apply arg_sub in H1. congruence. Qed.

  Lemma out_produced n x : In n nodes -> In x (out_names n) -> In x (produced nodes).
  Proof. intros H1 H2. unfold produced. apply in_flat_map. exists n. auto. Qed.

  Lemma dyn_src m a : In m nodes -> In a (ninputs m) -> In (aname a) (produced nodes) -> asrc a = VConstant \/ asrc a = VDynamic.
  Proof. intros H1 H2 H3. specialize (Hapart m a H1 H2). destruct (asrc a); auto; contradiction. Qed.
  Lemma dyn m a v : In m nodes -> In a (ninputs m) -> In (aname a) (produced nodes) -> value a v -> e (aname a) = Some v.
  Proof.
    intros H1 H2 H3 H4. destruct (dyn_src m a H1 H2 H3) as [E|E]; unfold arg_eval in H4; rewrite E in H4;
      destruct (e (aname a)); cbn in H4; congruence.
  Qed.

  Lemma dyn2 m n a v : In m nodes -> In a (ninputs m) -> In n nodes -> In (aname a) (out_names n) -> value a v -> e (aname a) = Some v.
  Proof. intros H1 H2 H3 H4. apply (dyn m); [exact H1|exact H2|]. exact (out_produced n _ H3 H4). Qed.

  Lemma binary n x v : In n nodes -> In (ntype n) ["MatMul"; "Add"; "Mul"; "Div"]%string -> In x (out_names n) -> e x = Some v ->
    exists a b X Y outs, ninputs n = [a; b] /\ value a X /\ value b Y /\
      sem (ntype n) (nattrs n) (length (noutputs n)) [Some X; Some Y] = Some outs /\ (forall r, outs = [r] -> v = r).
  Proof.
    intros Hn Ht Hx Hv. destruct (Hran n x v Hn Hx Hv) as (vs & outs & Ha & Hs & Hf).
    destruct (al_arity sem laws _ _ _ _ _ Hs) as [Har _]. destruct (Har Ht) as (X & Y & ->).
    destruct (ninputs n) as [|a [|b [|c l]]]; cbn in Ha; try discriminate.
    - destruct (arg_eval static e a) as [[?|]|]; discriminate.
    - destruct (arg_eval static e a) as [oa|] eqn:Ea; [|discriminate]. destruct (arg_eval static e b) as [ob|] eqn:Eb; [|discriminate].
      injection Ha as -> ->. exists a, b, X, Y, outs. repeat split; auto. intros r ->.
      inversion Hf as [|y ? l1 l2 Hy Hl E1 E2]; subst. inversion Hl; subst. rewrite <- E1 in Hx. destruct Hx as [->|[]]. congruence.
    - destruct (arg_eval static e a); [|discriminate]. destruct (arg_eval static e b); [|discriminate].
      destruct (arg_eval static e c); [|discriminate]. destruct (args_eval static e l); discriminate.
  Qed.
  Lemma unary n x v : In n nodes -> In (ntype n) ["Softmax"; "Transpose"]%string -> In x (out_names n) -> e x = Some v ->
    exists a X outs, ninputs n = [a] /\ value a X /\
      sem (ntype n) (nattrs n) (length (noutputs n)) [Some X] = Some outs /\ (forall r, outs = [r] -> v = r).
  Proof.
    intros Hn Ht Hx Hv. destruct (Hran n x v Hn Hx Hv) as (vs & outs & Ha & Hs & Hf).
    destruct (al_arity sem laws _ _ _ _ _ Hs) as [_ Har]. destruct (Har Ht) as (X & ->).
    destruct (ninputs n) as [|a [|b l]]; cbn in Ha; try discriminate.
    - destruct (arg_eval static e a) as [oa|] eqn:Ea; [|discriminate].
      injection Ha as ->. exists a, X, outs. repeat split; auto. intros r ->.
      inversion Hf as [|y ? l1 l2 Hy Hl E1 E2]; subst. inversion Hl; subst. rewrite <- E1 in Hx. destruct Hx as [->|[]]. congruence.
    - destruct (arg_eval static e a); [|discriminate]. destruct (arg_eval static e b); [|discriminate].
      destruct (args_eval static e l); discriminate.
  Qed.

  (** [Y] is [X], every element multiplied by [r]. *)
  Definition times (X Y : rt) (r : R) : Prop := forall b h m n, tshape X = [b; h; m; n] ->
    tshape Y = [b; h; m; n] /\ forall i j k c, i < b -> j < h -> k < m -> c < n -> rd Y [i; j; k; c] = (rd X [i; j; k; c] * r)%R.

  Lemma number_of n i c X : In n nodes -> In (ntype n) ["Mul"; "Div"]%string -> In i (ninputs n) -> scalar i = Number c -> value i X ->
    is_finite c = true /\ exists s, Forall (eq 1) s /\ (length s <= 4)%nat /\ X = mkT s [B2R c].
  Proof.
    intros Hn Ht Hi Hc HX. destruct (ag_numbers _ _ _ _ _ G n i c Hn Ht Hi Hc) as (Hfin & s & H1 & H2 & H3).
    split; [exact Hfin|]. exists s. split; [exact H1|]. split; [exact H2|]. eapply value_eq; eassumption.
  Qed.

  Lemma mul_scale n x' s y Y : In n nodes -> ntype n = "Mul"%string -> try_extract_scale scalar nodes n = Done (x', s) ->
    In y (out_names n) -> e y = Some Y ->
    exists a b X, ninputs n = [a; b] /\ let q := if has_value scalar b then a else b in
      x' = aname q /\ value q X /\ exact32 s (B2R s) /\ times X Y (B2R s).
  Proof.
    intros Hn Ht H Hy HY. unfold try_extract_scale in H. apply ebind_Done in H. destruct H as (o & _ & H).
    destruct (single_use nodes (aname o)); [|discriminate]. rewrite Ht in H. cbn in H.
    destruct (binary n y Y Hn) as (a & b & A & B & outs & Hin & HA & HB & Hs & Hout); [rewrite Ht; cbn; tauto|exact Hy|exact HY|].
    rewrite Ht, (al_mul sem laws) in Hs. destruct (elementwise Rmult A B) as [r|] eqn:Er; cbn in Hs; [|discriminate].
    injection Hs as <-. assert (Y = r) by (apply Hout; reflexivity). subst r. clear Hout.
    assert (Hty : In (ntype n) ["Mul"; "Div"]%string) by (rewrite Ht; cbn; tauto).
    apply ebind_Done in H. destruct H as (b' & Hb & H). apply input_Done in Hb. rewrite Hin in Hb. injection Hb as <-.
    exists a, b.
    assert (Ha : forall c, scalar a = Number c -> Done (aname b, c) = Done (x', s) -> scalar b = NoValue -> exists X,
       ninputs n = [a; b] /\ (let q := if has_value scalar b then a else b in x' = aname q /\ value q X /\ exact32 s (B2R s) /\ times X Y (B2R s))).
    { intros c Hc E Hbv. injection E as <- <-.
      destruct (number_of n a c A Hn Hty) as (Hfin & sh & S1 & S2 & ->); [rewrite Hin; left; reflexivity|exact Hc|exact HA|].
      exists B. split; [exact Hin|]. unfold has_value. rewrite Hbv. cbn. split; [reflexivity|]. split; [exact HB|].
      split; [eapply (ag_factors _ _ _ _ _ G n a); [exact Hn|exact Ht|rewrite Hin; left; reflexivity|exact Hc]|].
      intros b0 h0 m0 n0 Hsh. destruct (scaled_l _ _ _ _ _ _ _ _ _ Er S1 S2 Hsh) as [T1 T2]. split; [exact T1|].
      intros. rewrite T2 by assumption. ring. }
    assert (Hcont : forall z : ev (string * f64), z = ebind (input n 0) (fun a =>
        match scalar a with EmptyData => Panic | Number v => Done (aname b, v) | NoValue | NotNumber => Skip end) ->
        z = Done (x', s) -> exists c, scalar a = Number c /\ Done (aname b, c) = Done (x', s)).
    { intros z -> Hz. apply ebind_Done in Hz. destruct Hz as (a' & Ha' & Hz). apply input_Done in Ha'. rewrite Hin in Ha'. injection Ha' as <-.
      destruct (scalar a) as [| | |c] eqn:Es; try discriminate. exists c. auto. }
    destruct (scalar b) as [| | |c] eqn:Hbv; try discriminate.
    - destruct (Hcont _ eq_refl H) as (c & Hc & E). exact (Ha c Hc E eq_refl).
    - destruct (Hcont _ eq_refl H) as (c & Hc & E). exfalso. eapply (ag_kind _ _ _ _ _ G n a b c); eauto.
    - unfold emap in H. apply ebind_Done in H. destruct H as (a' & Ha' & H). apply input_Done in Ha'. rewrite Hin in Ha'. injection Ha' as <-.
      injection H as <- <-.
      destruct (number_of n b c B Hn Hty) as (Hfin & sh & S1 & S2 & ->); [rewrite Hin; right; left; reflexivity|exact Hbv|exact HB|].
      exists A. split; [exact Hin|]. unfold has_value. rewrite Hbv. cbn. split; [reflexivity|]. split; [exact HA|].
      split; [eapply (ag_factors _ _ _ _ _ G n b); [exact Hn|exact Ht|rewrite Hin; right; left; reflexivity|exact Hbv]|].
      intros b0 h0 m0 n0 Hsh. exact (scaled_r _ _ _ _ _ _ _ _ _ Er S1 S2 Hsh).
  Qed.

  Lemma div_scale n x' s y Y : In n nodes -> ntype n = "Div"%string -> try_extract_scale scalar nodes n = Done (x', s) ->
    In y (out_names n) -> e y = Some Y ->
    exists a b X r, ninputs n = [a; b] /\ x' = aname a /\ value a X /\
      (forall m, In m nodes -> ntype m = "MatMul"%string -> In x' (out_names m) -> exact32 s r) /\ times X Y r.
  Proof.
    intros Hn Ht H Hy HY. unfold try_extract_scale in H. apply ebind_Done in H. destruct H as (o & _ & H).
    destruct (single_use nodes (aname o)); [|discriminate]. rewrite Ht in H. cbn in H.
    destruct (binary n y Y Hn) as (a & b & A & B & outs & Hin & HA & HB & Hs & Hout); [rewrite Ht; cbn; tauto|exact Hy|exact HY|].
    rewrite Ht, (al_div sem laws) in Hs. destruct (elementwise Rdiv A B) as [r|] eqn:Er; cbn in Hs; [|discriminate].
    injection Hs as <-. assert (Y = r) by (apply Hout; reflexivity). subst r. clear Hout.
    assert (Hty : In (ntype n) ["Mul"; "Div"]%string) by (rewrite Ht; cbn; tauto).
    apply ebind_Done in H. destruct H as (b' & Hb & H). apply input_Done in Hb. rewrite Hin in Hb. injection Hb as <-.
    destruct (scalar b) as [| | |c] eqn:Hbv; try discriminate. destruct (is_zero c); [discriminate|].
    unfold emap in H. apply ebind_Done in H. destruct H as (a' & Ha' & H). apply input_Done in Ha'. rewrite Hin in Ha'. injection Ha' as <-.
    injection H as <- <-.
    destruct (number_of n b c B Hn Hty) as (Hfin & sh & S1 & S2 & ->); [rewrite Hin; right; left; reflexivity|exact Hbv|exact HB|].
    exists a, b, A, (/ B2R c)%R. split; [exact Hin|]. split; [reflexivity|]. split; [exact HA|]. split.
    - intros m Hm Hmt Hx. eapply (ag_divisors _ _ _ _ _ G n m a b c); eauto.
    - intros b0 h0 m0 n0 Hsh. exact (scaled_r _ _ _ _ _ _ _ _ _ Er S1 S2 Hsh).
  Qed.

  Lemma scale_type n p : try_extract_scale scalar nodes n = Done p -> ntype n = "Mul"%string \/ ntype n = "Div"%string.
  Proof.
    unfold try_extract_scale. intros H. apply ebind_Done in H. destruct H as (o & _ & H).
    destruct (single_use nodes (aname o)); [|discriminate]. cbn [negb] in H.
    destruct (String.eqb_spec (ntype n) "Div"); [right; assumption|]. destruct (String.eqb_spec (ntype n) "Mul"); [left; assumption|discriminate].
  Qed.

  Lemma any_scale n x' s y Y : In n nodes -> try_extract_scale scalar nodes n = Done (x', s) -> In y (out_names n) -> e y = Some Y ->
    exists a X r, In a (ninputs n) /\ x' = aname a /\ value a X /\
      (forall m, In m nodes -> ntype m = "MatMul"%string -> In x' (out_names m) -> exact32 s r) /\ times X Y r.
  Proof.
    intros Hn H Hy HY. destruct (scale_type _ _ H) as [Ht|Ht].
    - destruct (mul_scale _ _ _ _ _ Hn Ht H Hy HY) as (a & b & X & Hin & Hq). cbv zeta in Hq. destruct Hq as (H1 & H2 & H3 & H4).
      exists (if has_value scalar b then a else b), X, (B2R s). split; [rewrite Hin; destruct (has_value scalar b); cbn; tauto|].
      split; [exact H1|]. split; [exact H2|]. split; [intros; exact H3|exact H4].
    - destruct (div_scale _ _ _ _ _ Hn Ht H Hy HY) as (a & b & X & r & Hin & H1 & H2 & H3 & H4).
      exists a, X, r. split; [rewrite Hin; left; reflexivity|]. auto.
  Qed.

  Lemma times_1 X : times X X 1.
  Proof. intros b h m n H. split; [exact H|]. intros. ring. Qed.

  Definition is_mul_div (n : rnode) : Prop := In (ntype n) ["Mul"; "Div"]%string.
  Definition fed (x : string) : Prop := exists n a, In n nodes /\ is_mul_div n /\ In a (ninputs n) /\ aname a = x.

  (** [Z] is [X] times [r] plus the mask. *)
  Definition shifted (X Z : rt) (r : R) (M : rt) : Prop := forall b h m n, tshape X = [b; h; m; n] ->
    tshape Z = [b; h; m; n] /\ mask_fits [b; h; m; n] (tshape M) /\
    forall i j k c, i < b -> j < h -> k < m -> c < n ->
      rd Z [i; j; k; c] = (rd X [i; j; k; c] * r + rd M (bproj (tshape M) [i; j; k; c]))%R.

  Definition factor (scale : option f64) (x : string) (r : R) : Prop :=
    match scale with
    | None => r = 1%R
    | Some s => (forall m, In m nodes -> ntype m = "MatMul"%string -> In x (out_names m) -> exact32 s r) /\ fed x
    end.

  (** One order of the operands of the Add node. *)
  Lemma order_ok add sm si u k mask up sc Z :
    In add nodes -> ntype add = "Add"%string -> In sm nodes -> ntype sm = "Softmax"%string -> In si (ninputs sm) ->
    In (aname si) (out_names add) -> value si Z ->
    (u, k) = (0%nat, 1%nat) \/ (u, k) = (1%nat, 0%nat) ->
    mask_order scalar nodes add u k = Done (mask, up, sc) ->
    exists X r M, e up = Some X /\ In mask (ninputs add) /\ value mask M /\ factor sc up r /\ shifted X Z r M /\
      (sc = None -> exists i n, producer nodes up = Some (i, n) /\ ntype n = "MatMul"%string).
  Proof.
    intros Hadd Hat Hsm Hst Hsi Hname HZ Huk H.
    assert (HeZ : e (aname si) = Some Z) by (apply (dyn2 sm add); assumption).
    destruct (binary add (aname si) Z Hadd) as (a0 & a1 & A & B & outs & Hin & HA & HB & Hs & Hout); [rewrite Hat; cbn; tauto|exact Hname|exact HeZ|].
    rewrite Hat, (al_add sem laws) in Hs. destruct (elementwise Rplus A B) as [z|] eqn:Er; cbn in Hs; [|discriminate].
    injection Hs as <-. assert (Z = z) by (apply Hout; reflexivity). subst z. clear Hout.
    unfold mask_order in H. apply ebind_Done in H. destruct H as (ua & Hu & H). apply ebind_Done in H. destruct H as (ma & Hm & H).
    apply input_Done in Hu, Hm.
    assert (Hcase : exists U M, value ua U /\ value ma M /\ (ninputs add = [ua; ma] \/ ninputs add = [ma; ua]) /\
              (elementwise Rplus U M = Some Z \/ elementwise Rplus M U = Some Z)).
    { rewrite Hin in Hu, Hm |- *. destruct Huk as [E|E]; injection E as -> ->; cbn in Hu, Hm; injection Hu as ->; injection Hm as ->; eauto 10. }
    destruct Hcase as (U & M & HU & HM & Hio & Hel).
    destruct (producer nodes (aname ua)) as [[ui un]|] eqn:Ep; [|discriminate].
    destruct (producer_ok _ _ _ _ Ep) as (Hun & HunIn & HunOut).
    assert (HuaIn : In ua (ninputs add)) by (destruct Hio as [E|E]; rewrite E; cbn; tauto).
    assert (HmaIn : In ma (ninputs add)) by (destruct Hio as [E|E]; rewrite E; cbn; tauto).
    assert (HeU : e (aname ua) = Some U) by (apply (dyn2 add un); assumption).
    assert (Hfits : In (ntype un) ["MatMul"; "Mul"; "Div"]%string -> mask_fits (tshape U) (tshape M)).
    { intros Hty. unfold out_names in Hname. apply in_map_iff in Hname. destruct Hname as (o & Ho & HoIn).
      eapply (ag_masks _ _ _ _ _ G add sm un o ua ma); eauto using arg_sub.
      exists si. split; [exact Hsi|]. split; [congruence|]. apply (dyn_src sm si Hsm Hsi).
      rewrite <- Ho. apply (out_produced add); [exact Hadd|]. unfold out_names. apply in_map. exact HoIn. }
    assert (Hshift : forall X r, times X U r -> In (ntype un) ["MatMul"; "Mul"; "Div"]%string -> shifted X Z r M).
    { intros X r HX Hty b h m n Hsh. destruct (HX _ _ _ _ Hsh) as [HUs HUv]. specialize (Hfits Hty). rewrite HUs in Hfits.
      destruct Hel as [El|El].
      - destruct (masked _ _ _ _ _ _ _ _ El HUs Hfits) as [T1 T2]. split; [exact T1|]. split; [exact Hfits|].
        intros. rewrite T2, HUv by assumption. reflexivity.
      - destruct (masked_l _ _ _ _ _ _ _ _ El HUs Hfits) as [T1 T2]. split; [exact T1|]. split; [exact Hfits|].
        intros. rewrite T2, HUv by assumption. ring. }
    assert (Hdirect : (if (String.eqb (ntype un) "MatMul" && single_use nodes (aname ua))%bool then Done (ma, aname ua, None) else Skip) = Done (mask, up, sc) ->
      exists X r M, e up = Some X /\ In mask (ninputs add) /\ value mask M /\ factor sc up r /\ shifted X Z r M /\
      (sc = None -> exists i n, producer nodes up = Some (i, n) /\ ntype n = "MatMul"%string)).
    { destruct (String.eqb_spec (ntype un) "MatMul") as [Hmm|]; cbn [andb]; [|discriminate].
      destruct (single_use nodes (aname ua)); [|discriminate]. intros E. injection E as <- <- <-.
      exists U, 1%R, M. split; [exact HeU|]. split; [exact HmaIn|]. split; [exact HM|]. split; [reflexivity|].
      split; [apply Hshift; [apply times_1|rewrite Hmm; cbn; tauto]|]. intros _. eauto. }
    apply if_some_Done in H. destruct H as [([x' s] & Hx & H)|[_ H]]; [|exact (Hdirect H)].
    cbn [fst snd] in H. destruct (producer nodes x') as [[mi mm]|] eqn:Em; [|exact (Hdirect H)].
    destruct (String.eqb_spec (ntype mm) "MatMul") as [Hmm|]; [|exact (Hdirect H)].
    injection H as <- <- <-.
    destruct (any_scale un x' s (aname ua) U HunIn Hx HunOut HeU) as (a & X & r & Ha & -> & HX & Hex & Ht).
    destruct (producer_ok _ _ _ _ Em) as (_ & HmmIn & HmmOut).
    exists X, r, M. split; [apply (dyn2 un mm); assumption|].
    split; [exact HmaIn|]. split; [exact HM|].
    assert (Hty : is_mul_div un) by (destruct (scale_type _ _ Hx) as [E|E]; unfold is_mul_div; rewrite E; cbn; tauto).
    split; [split; [exact Hex|exists un, a; auto]|].
    split; [apply Hshift; [exact Ht|]; unfold is_mul_div in Hty; cbn in Hty |- *; tauto|]. discriminate.
  Qed.

  Lemma upstream_ok sm si Z x mask scale qi qk :
    In sm nodes -> ntype sm = "Softmax"%string -> In si (ninputs sm) -> value si Z ->
    upstream scalar nodes (aname si) = Done (x, mask, scale) -> producer nodes x = Some (qi, qk) -> ntype qk = "MatMul"%string ->
    exists X r, e x = Some X /\ factor scale x r /\
      match mask with
      | None => times X Z r
      | Some mk => exists M add, value mk M /\ In add nodes /\ In mk (ninputs add) /\ shifted X Z r M
      end.
  Proof.
    intros Hsm Hst Hsi HZ H Hp Hmm. unfold upstream in H. apply ebind_Done in H. destruct H as ([[x1 mk1] sc1] & H1 & H2).
    destruct (producer_ok _ _ _ _ Hp) as (_ & HqkIn & HqkOut).
    assert (Hcase : (x1 = aname si /\ mk1 = None /\ sc1 = None) \/
       exists add m u k, In add nodes /\ ntype add = "Add"%string /\ In (aname si) (out_names add) /\
         ((u, k) = (0%nat, 1%nat) \/ (u, k) = (1%nat, 0%nat)) /\ mask_order scalar nodes add u k = Done (m, x1, sc1) /\ mk1 = Some m).
    { destruct (producer nodes (aname si)) as [[ai add]|] eqn:Ea; [|left; injection H1; auto].
      destruct (String.eqb_spec (ntype add) "Add") as [Hadd|]; [|left; injection H1; auto].
      apply ebind_Done in H1. destruct H1 as (o & _ & H1). destruct (single_use nodes (aname o)); [|left; injection H1; auto].
      apply if_some_Done in H1. destruct H1 as [([[m up] s] & Hm & E)|[_ E]]; [|left; injection E; auto].
      cbn [fst snd] in E. injection E as <- <- <-. right. destruct (producer_ok _ _ _ _ Ea) as (_ & HaIn & HaOut).
      unfold try_extract_mask in Hm. apply if_some_Done in Hm. destruct Hm as [(r0 & Hm & E)|[_ Hm]].
      - injection E as ->. exists add, m, 0%nat, 1%nat. auto 10.
      - exists add, m, 1%nat, 0%nat. auto 10. }
    clear H1. destruct Hcase as [(-> & -> & ->)|(add & m & u & k & Hadd & Hat & Hao & Huk & Hord & ->)].
    - (* no mask *)
      destruct (producer nodes (aname si)) as [[si' sn]|] eqn:Es.
      + destruct (producer_ok _ _ _ _ Es) as (_ & HsnIn & HsnOut).
        assert (HeZ : e (aname si) = Some Z) by (apply (dyn2 sm sn); assumption).
        apply if_some_Done in H2. destruct H2 as [([x' s] & Hx & E)|[_ E]].
        * cbn [fst snd] in E. injection E as <- <- <-.
          destruct (any_scale sn x' s (aname si) Z HsnIn Hx HsnOut HeZ) as (a & X & r & Ha & -> & HX & Hex & Ht).
          exists X, r. split; [apply (dyn2 sn qk); assumption|].
          assert (Hty : is_mul_div sn) by (destruct (scale_type _ _ Hx) as [E|E]; unfold is_mul_div; rewrite E; cbn; tauto).
          split; [split; [exact Hex|exists sn, a; auto]|exact Ht].
        * injection E as <- <- <-. exists Z, 1%R. split; [exact HeZ|]. split; [reflexivity|apply times_1].
      + injection H2 as <- <- <-. congruence.
    - destruct (order_ok add sm si u k m x1 sc1 Z Hadd Hat Hsm Hst Hsi Hao HZ Huk Hord) as (X & r & M & HX & HmIn & HM & Hf & Hsh & Hnone).
      assert (E : (x, mask, scale) = (x1, Some m, sc1)).
      { destruct sc1 as [s|]; [congruence|]. destruct (Hnone eq_refl) as (i & n & Hpn & Hnt). rewrite Hpn in H2.
        apply if_some_Done in H2. destruct H2 as [(p & Hx & _)|[_ E]]; [|congruence].
        destruct (scale_type _ _ Hx); congruence. }
      injection E as -> -> ->. exists X, r. split; [exact HX|]. split; [exact Hf|]. exists M, add. auto.
  Qed.

  (** * Scores *)
  Lemma rank4 n i v : In n nodes -> In i (ninputs n) -> ty_rank (aty i) = 4 -> value i v -> exists b h m k, tshape v = [b; h; m; k].
  Proof.
    intros Hn Hi Hr Hv. destruct (aty i) as [d|d|t|t] eqn:Et; cbn in Hr; try discriminate.
    pose proof (ag_ranks _ _ _ _ _ G n i t v Hn Hi Et (arg_sub _ _ Hv)) as Hl. rewrite Hr in Hl.
    destruct (tshape v) as [|b [|h [|m [|k [|? ?]]]]]; cbn [length] in Hl; try lia. exists b, h, m, k. reflexivity.
  Qed.

  Lemma eq_list_eq a : forall b, eq_list a b = true -> a = b.
  Proof.
    induction a as [|x a IH]; intros [|y b] H; cbn in H; try discriminate; [reflexivity|].
    apply andb_prop in H. destruct H as [H1 H2]. apply Z.eqb_eq in H1. f_equal; auto.
  Qed.
  Lemma swap4 tr k : nth_error (ninputs tr) 0 = Some k -> ty_rank (aty k) = 4 -> last_two_swap tr = Done true ->
    sget (nattrs tr) "perm" = Some (AInts [0; 1; 3; 2]%Z).
  Proof.
    intros Hk Hr H. unfold last_two_swap in H. apply ebind_Done in H. destruct H as (i & Hi & H). apply input_Done in Hi.
    rewrite Hk in Hi. injection Hi as <-. rewrite Hr in H. cbn [N.ltb] in H.
    change (4 <? 2) with false in H. cbv iota in H. apply ebind_Done in H. destruct H as (p & Hp & H). injection H as H. apply eq_list_eq in H.
    change (swap_perm 4) with [0; 1; 3; 2]%Z in H. subst p. unfold perm_attr, get_attr in Hp.
    destruct (sget (nattrs tr) "perm") as [[]|]; try discriminate. congruence.
  Qed.

  Lemma matmul_ok n x X i j : In n nodes -> ntype n = "MatMul"%string -> In x (out_names n) -> e x = Some X ->
    nth_error (ninputs n) 0 = Some i -> nth_error (ninputs n) 1 = Some j ->
    exists A B, ninputs n = [i; j] /\ value i A /\ value j B /\
      forall b h m k, tshape A = [b; h; m; k] -> exists c, tshape B = [b; h; k; c] /\
        X = mk4 b h m c (fun i j r c => total k (fun t => rd A [i; j; r; t] * rd B [i; j; t; c])%R).
  Proof.
    intros Hn Ht Hx HX Hi Hj.
    destruct (binary n x X Hn) as (a & b & A & B & outs & Hin & HA & HB & Hs & Hout); [rewrite Ht; cbn; tauto|exact Hx|exact HX|].
    rewrite Hin in Hi, Hj. injection Hi as <-. injection Hj as <-. exists A, B. split; [exact Hin|]. split; [exact HA|]. split; [exact HB|].
    intros b0 h0 m0 k0 HsA. destruct (ag_batch _ _ _ _ _ G n a b A B b0 h0 m0 k0 Hn Ht Hin (arg_sub _ _ HA) (arg_sub _ _ HB) HsA) as [c HsB].
    exists c. split; [exact HsB|]. rewrite Ht, (al_matmul sem laws _ _ _ _ _ _ _ _ _ HsA HsB) in Hs. injection Hs as <-. apply Hout. reflexivity.
  Qed.

  (** [X] holds the products of the rows of [Q] and [K], times [r]. *)
  Definition scores (Q K X : rt) (r : R) : Prop := forall b h m d, tshape Q = [b; h; m; d] -> exists n,
    tshape K = [b; h; n; d] /\ tshape X = [b; h; m; n] /\
    forall i j u c, i < b -> j < h -> u < m -> c < n ->
      rd X [i; j; u; c] = (total d (fun t => rd Q [i; j; u; t] * rd K [i; j; c; t]) * r)%R.

  Lemma standard_ok qk x X q k pre : In qk nodes -> ntype qk = "MatMul"%string -> In x (out_names qk) -> e x = Some X ->
    standard_k scalar nodes qk = Done (q, k, pre) -> ty_rank (aty k) = 4 ->
    In q (ninputs qk) /\ exists Q K, value q Q /\ value k K /\ scores Q K X 1 /\
      forall qr s, pre = Some (qr, s) -> exists Q' m, In m nodes /\ In qr (ninputs m) /\ value qr Q' /\ exact32 s (B2R s) /\
        (ty_rank (aty qr) = 4 -> scores Q' K X (B2R s)).
  Proof.
    intros Hqk Ht Hx HX H Hk4. unfold standard_k in H.
    apply ebind_Done in H. destruct H as (kt & Hkt & H). apply input_Done in Hkt.
    apply ebind_Done in H. destruct H as ([ti tr] & Hp & H). apply try_Done in Hp. cbn [snd] in H.
    destruct (String.eqb_spec (ntype tr) "Transpose") as [Htr|]; cbn [negb] in H; [|discriminate].
    apply ebind_Done in H. destruct H as (ok & Hok & H). destruct ok; cbn [negb] in H; [|discriminate].
    apply ebind_Done in H. destruct H as (o & _ & H). destruct (single_use nodes (aname o)); cbn [negb] in H; [|discriminate].
    apply ebind_Done in H. destruct H as (q0 & Hq0 & H). apply input_Done in Hq0.
    apply ebind_Done in H. destruct H as (k0 & Hk0 & H). apply input_Done in Hk0.
    assert (E : q0 = q /\ k0 = k).
    { destruct (producer nodes (aname q0)) as [[mi mm]|]; [|injection H as -> -> _; auto].
      destruct (String.eqb (ntype mm) "Mul"); [|injection H as -> -> _; auto].
      apply ebind_Done in H. destruct H as (om & _ & H). destruct (single_use nodes (aname om)); [|injection H as -> -> _; auto].
      apply if_some_Done in H. destruct H as [(xs & _ & H)|[_ H]]; [|injection H as -> -> _; auto].
      apply ebind_Done in H. destruct H as (b1 & _ & H). apply ebind_Done in H. destruct H as (a1 & _ & H). injection H as -> -> _. auto. }
    destruct E as [-> ->].
    destruct (producer_ok _ _ _ _ Hp) as (_ & HtrIn & HtrOut).
    destruct (matmul_ok qk x X q kt Hqk Ht Hx HX Hq0 Hkt) as (Q & KT & Hin & HQ & HKT & Hmm).
    assert (HqIn : In q (ninputs qk)) by (rewrite Hin; left; reflexivity).
    assert (HeKT : e (aname kt) = Some KT) by (apply (dyn2 qk tr); auto; rewrite Hin; right; left; reflexivity).
    destruct (unary tr (aname kt) KT HtrIn) as (k1 & K & outs & Hkin & HK & Hs & Hout); [rewrite Htr; cbn; tauto|exact HtrOut|exact HeKT|].
    assert (k1 = k) by (rewrite Hkin in Hk0; cbn in Hk0; congruence). subst k1.
    assert (HkIn : In k (ninputs tr)) by (rewrite Hkin; left; reflexivity).
    destruct (rank4 tr k K HtrIn HkIn Hk4 HK) as (kb & kh & kn & kd & HKs).
    rewrite Htr, (al_swap sem laws _ _ _ _ _ _ _ HKs (swap4 tr k Hk0 Hk4 Hok)) in Hs. injection Hs as <-.
    assert (HKT2 : KT = mk4 kb kh kd kn (fun i j r c => rd K [i; j; c; r])) by (apply Hout; reflexivity).
    assert (Hsc : scores Q K X 1).
    { intros b h m d HQs. destruct (Hmm _ _ _ _ HQs) as (n & HsKT & ->). rewrite HKT2, mk4_shape in HsKT. injection HsKT as -> -> -> ->.
      exists n. split; [exact HKs|]. split; [reflexivity|]. intros i j u c Hi Hj Hu Hc. rewrite mk4_rd by assumption. rewrite Rmult_1_r.
      apply total_ext. intros t Hlt. rewrite HKT2, mk4_rd by assumption. reflexivity. }
    split; [exact HqIn|]. exists Q, K. split; [exact HQ|]. split; [exact HK|]. split; [exact Hsc|].
    intros qr s ->. destruct (producer nodes (aname q)) as [[mi mm]|] eqn:Em; [|discriminate].
    destruct (String.eqb_spec (ntype mm) "Mul") as [Hmul|]; [|discriminate].
    apply ebind_Done in H. destruct H as (om & _ & H). destruct (single_use nodes (aname om)); [|discriminate].
    apply if_some_Done in H. destruct H as [([x' s'] & Hxs & H)|[_ H]]; [|discriminate].
    apply ebind_Done in H. destruct H as (b1 & Hb1 & H). apply ebind_Done in H. destruct H as (a1 & Ha1 & H). cbn [snd] in H.
    apply input_Done in Hb1, Ha1. injection H as <- <-. destruct (producer_ok _ _ _ _ Em) as (_ & HmIn & HmOut).
    assert (HeQ : e (aname q) = Some Q) by (apply (dyn2 qk mm); auto).
    destruct (mul_scale mm x' s' (aname q) Q HmIn Hmul Hxs HmOut HeQ) as (a & b & Q' & Hmin & Hq). cbv zeta in Hq. destruct Hq as (_ & HQ' & Hex & Htm).
    rewrite Hmin in Ha1, Hb1. injection Ha1 as <-. injection Hb1 as <-.
    exists Q', mm. split; [exact HmIn|]. split; [rewrite Hmin; destruct (has_value scalar b); cbn; tauto|]. split; [exact HQ'|]. split; [exact Hex|].
    intros _ b0 h0 m0 d0 HQs'. destruct (Htm _ _ _ _ HQs') as [HQs HQv]. destruct (Hsc _ _ _ _ HQs) as (n & H1 & H2 & H3).
    exists n. split; [exact H1|]. split; [exact H2|]. intros i j u c Hi Hj Hu Hc. rewrite H3 by assumption. rewrite Rmult_1_r, <- total_scale.
    apply total_ext. intros t Hlt. rewrite HQv by assumption. ring.
  Qed.

  Lemma swapped_rank ty : ty_rank (swapped_ty ty) = ty_rank ty.
  Proof. destruct ty; reflexivity. Qed.

  Lemma shared_ok a b a0 a1 b0 b1 i j : ninputs a = [a0; a1] -> ninputs b = [b0; b1] -> shared_scalar a b = Done (i, j) ->
    exists s t s' t', nth_error [a0; a1] (1 - i) = Some s /\ nth_error [a0; a1] i = Some t /\
      nth_error [b0; b1] (1 - j) = Some s' /\ nth_error [b0; b1] j = Some t' /\ aname s = aname s' /\
      ([a0; a1] = [s; t] \/ [a0; a1] = [t; s]) /\ ([b0; b1] = [s'; t'] \/ [b0; b1] = [t'; s']).
  Proof.
    intros Ha Hb H. unfold shared_scalar, input in H. rewrite Ha, Hb in H. cbn in H.
    destruct (String.eqb_spec (aname a0) (aname b0)); [injection H as <- <-; cbn; eauto 20|].
    destruct (String.eqb_spec (aname a0) (aname b1)); [injection H as <- <-; cbn; eauto 20|].
    destruct (String.eqb_spec (aname a1) (aname b0)); [injection H as <- <-; cbn; eauto 20|].
    destruct (String.eqb_spec (aname a1) (aname b1)); [injection H as <- <-; cbn; eauto 20|discriminate].
  Qed.

  Lemma mul_by n y Y s t : In n nodes -> ntype n = "Mul"%string -> In y (out_names n) -> e y = Some Y ->
    ninputs n = [s; t] \/ ninputs n = [t; s] ->
    exists S T, value s S /\ value t T /\ forall sh c, S = mkT sh [c] -> Forall (eq 1) sh -> (length sh <= 4)%nat -> times T Y c.
  Proof.
    intros Hn Ht Hy HY Hio.
    destruct (binary n y Y Hn) as (a & b & A & B & outs & Hin & HA & HB & Hs & Hout); [rewrite Ht; cbn; tauto|exact Hy|exact HY|].
    rewrite Ht, (al_mul sem laws) in Hs. destruct (elementwise Rmult A B) as [r|] eqn:Er; cbn in Hs; [|discriminate].
    injection Hs as <-. assert (Y = r) by (apply Hout; reflexivity). subst r. clear Hout.
    destruct Hio as [E|E]; rewrite E in Hin; injection Hin as -> ->.
    - exists A, B. split; [exact HA|]. split; [exact HB|]. intros sh c -> S1 S2 b0 h0 m0 n0 Hsh.
      destruct (scaled_l _ _ _ _ _ _ _ _ _ Er S1 S2 Hsh) as [T1 T2]. split; [exact T1|]. intros. rewrite T2 by assumption. ring.
    - exists B, A. split; [exact HB|]. split; [exact HA|]. intros sh c -> S1 S2 b0 h0 m0 n0 Hsh.
      exact (scaled_r _ _ _ _ _ _ _ _ _ Er S1 S2 Hsh).
  Qed.

  Definition corrected (qk : rnode) (kt k : arg) : rnode :=
    mkNode "Transpose" (new_name qk) [kt] [k] [("perm"%string, AInts (swap_perm (ty_rank (aty kt))))].

  (** [X] holds the products of the rows of [Q] and the columns of [K]. *)
  Definition products (Q K X : rt) (r : R) : Prop := forall b h m d, tshape Q = [b; h; m; d] -> exists n,
    tshape K = [b; h; d; n] /\ tshape X = [b; h; m; n] /\
    forall i j u c, i < b -> j < h -> u < m -> c < n ->
      rd X [i; j; u; c] = (total d (fun t => rd Q [i; j; u; t] * rd K [i; j; t; c]) * r)%R.

  (** The structure found, without values. *)
  Lemma prescaled_shape qk qi q k pre extras : prescaled_qk scalar nodes qk qi = Done (q, k, pre, extras) ->
    exists kt kp km y, extras = [(qi, corrected qk kt k)] /\ k = mkArg (new_name qk) (swapped_ty (aty kt)) (asrc kt) /\
      nth_error (ninputs qk) 1 = Some y /\ producer nodes (aname y) = Some (kp, km) /\ In kt (ninputs km) /\
      exists ti tr, producer nodes (aname kt) = Some (ti, tr).
  Proof.
    unfold prescaled_qk. intros H.
    apply ebind_Done in H. destruct H as (x0 & Hx0 & H). apply ebind_Done in H. destruct H as ([qp qm] & Hqm & H).
    apply ebind_Done in H. destruct H as (x1 & Hx1 & H). apply ebind_Done in H. destruct H as ([kp km] & Hkm & H). cbn [snd] in H.
    destruct (negb _); [discriminate|].
    apply ebind_Done in H. destruct H as (qo & _ & H). destruct (negb _); [discriminate|].
    apply ebind_Done in H. destruct H as (ko & _ & H). destruct (negb _); [discriminate|].
    apply ebind_Done in H. destruct H as (ij & Hij & H). apply ebind_Done in H. destruct H as (sc & Hsc & H).
    destruct (1 <? ty_rank (aty sc)); [discriminate|].
    apply ebind_Done in H. destruct H as (qt & Hqt & H). apply ebind_Done in H. destruct H as (qtr & _ & H). destruct (negb _); [discriminate|].
    apply ebind_Done in H. destruct H as (kt & Hkt & H). apply ebind_Done in H. destruct H as ([ti tr] & Hktr & H). destruct (negb _); [discriminate|].
    apply ebind_Done in H. destruct H as (qpm & _ & H). apply ebind_Done in H. destruct H as (kpm & _ & H). destruct (negb _); [discriminate|].
    cbv zeta in H. destruct (ty_rank (aty kt) <? 2); [discriminate|].
    exists kt, kp, km, x1. apply input_Done in Hx1, Hkt. apply try_Done in Hkm, Hktr.
    assert (E : extras = [(qi, corrected qk kt k)] /\ k = mkArg (new_name qk) (swapped_ty (aty kt)) (asrc kt)).
    { destruct (scalar sc); try discriminate; injection H as <- <- <- <-; split; reflexivity. }
    destruct E as [E1 E2]. split; [exact E1|]. split; [exact E2|]. split; [exact Hx1|]. split; [exact Hkm|].
    split; [eapply nth_error_In; exact Hkt|]. eauto.
  Qed.

  Lemma prescaled_ok qk qi x X q k pre extras : In qk nodes -> ntype qk = "MatMul"%string -> In x (out_names qk) -> e x = Some X ->
    prescaled_qk scalar nodes qk qi = Done (q, k, pre, extras) ->
    exists kt c Q KT qm km, extras = [(qi, corrected qk kt k)] /\ k = mkArg (new_name qk) (swapped_ty (aty kt)) (asrc kt) /\
      (asrc kt = VConstant \/ asrc kt = VDynamic) /\
      In qm nodes /\ In q (ninputs qm) /\ In km nodes /\ In kt (ninputs km) /\ value q Q /\ value kt KT /\
      pre = Some (mul64 c c) /\ exact32 (mul64 c c) (B2R c * B2R c)%R /\ ~ fed x /\
      (ty_rank (aty q) = 4 -> ty_rank (aty k) = 4 -> products Q KT X (B2R c * B2R c)%R).
  Proof.
    intros Hqk Ht Hx HX H.
    unfold prescaled_qk in H.
    apply ebind_Done in H. destruct H as (x0 & Hx0 & H). apply ebind_Done in H. destruct H as ([qp qm] & Hqm & H).
    apply ebind_Done in H. destruct H as (x1 & Hx1 & H). apply ebind_Done in H. destruct H as ([kp km] & Hkm & H). cbn [snd] in H.
    destruct (String.eqb_spec (ntype qm) "Mul") as [Hqmt|]; [|discriminate].
    destruct (String.eqb_spec (ntype km) "Mul") as [Hkmt|]; [|discriminate]. cbn [andb negb] in H.
    apply ebind_Done in H. destruct H as (qo & _ & H). destruct (negb _); [discriminate|].
    apply ebind_Done in H. destruct H as (ko & _ & H). destruct (negb _); [discriminate|].
    apply ebind_Done in H. destruct H as ([i j] & Hij & H). apply ebind_Done in H. destruct H as (sc & Hsc & H). cbn [fst snd] in Hsc, H.
    destruct (N.ltb_spec 1 (ty_rank (aty sc))) as [|Hrk]; [discriminate|].
    apply ebind_Done in H. destruct H as (qt & Hqt & H). apply ebind_Done in H. destruct H as ([qti qtr] & Hqtr & H). destruct (negb _); [discriminate|].
    apply ebind_Done in H. destruct H as (kt & Hkt & H). apply ebind_Done in H. destruct H as ([kti ktr] & Hktr & H). destruct (negb _); [discriminate|].
    apply ebind_Done in H. destruct H as (qpm & _ & H). apply ebind_Done in H. destruct H as (kpm & _ & H). destruct (negb _); [discriminate|].
    cbv zeta in H. destruct (ty_rank (aty kt) <? 2); [discriminate|].
    apply input_Done in Hx0, Hx1, Hsc, Hqt, Hkt. apply try_Done in Hqm, Hkm, Hqtr, Hktr.
    destruct (producer_ok _ _ _ _ Hqm) as (_ & HqmIn & HqmOut). destruct (producer_ok _ _ _ _ Hkm) as (_ & HkmIn & HkmOut).
    destruct (matmul_ok qk x X x0 x1 Hqk Ht Hx HX Hx0 Hx1) as (A & B & Hin & HA & HB & Hmm).
    assert (HeA : e (aname x0) = Some A) by (apply (dyn2 qk qm); auto; rewrite Hin; left; reflexivity).
    assert (HeB : e (aname x1) = Some B) by (apply (dyn2 qk km); auto; rewrite Hin; right; left; reflexivity).
    destruct (binary qm (aname x0) A HqmIn) as (a0 & a1 & ? & ? & ? & Hqin & _); [rewrite Hqmt; cbn; tauto|exact HqmOut|exact HeA|].
    destruct (binary km (aname x1) B HkmIn) as (b0 & b1 & ? & ? & ? & Hkin & _); [rewrite Hkmt; cbn; tauto|exact HkmOut|exact HeB|].
    destruct (shared_ok qm km a0 a1 b0 b1 i j Hqin Hkin Hij) as (s & t & s' & t' & E1 & E2 & E3 & E4 & Hss & Ho1 & Ho2).
    rewrite Hqin in Hsc, Hqt. rewrite Hkin in Hkt. rewrite E1 in Hsc. rewrite E2 in Hqt. rewrite E4 in Hkt.
    injection Hsc as <-. injection Hqt as <-. injection Hkt as <-. rewrite <- Hqin in Ho1. rewrite <- Hkin in Ho2.
    assert (Is : In s (ninputs qm)) by (destruct Ho1 as [E|E]; rewrite E; cbn; tauto).
    assert (It : In t (ninputs qm)) by (destruct Ho1 as [E|E]; rewrite E; cbn; tauto).
    assert (Is' : In s' (ninputs km)) by (destruct Ho2 as [E|E]; rewrite E; cbn; tauto).
    assert (It' : In t' (ninputs km)) by (destruct Ho2 as [E|E]; rewrite E; cbn; tauto).
    destruct (ag_prescaled _ _ _ _ _ G qk qm km x0 x1 s s' Hqk Ht Hin HqmIn Hqmt HqmOut Is HkmIn Hkmt HkmOut Is' Hss Hrk) as ((c & Hc & Hex) & Hsame & Hno).
    destruct (mul_by qm (aname x0) A s t HqmIn Hqmt HqmOut HeA Ho1) as (S & T & HS & HT & HTm).
    destruct (mul_by km (aname x1) B s' t' HkmIn Hkmt HkmOut HeB Ho2) as (S' & T' & HS' & HT' & HTm').
    destruct (number_of qm s c S HqmIn) as (Hfin & sh & S1 & S2 & HSe); [rewrite Hqmt; cbn; tauto|exact Is|exact Hc|exact HS|].
    assert (HSe' : S' = mkT sh [B2R c]) by (rewrite <- HSe; apply arg_sub in HS, HS'; congruence).
    specialize (HTm _ _ HSe S1 S2). specialize (HTm' _ _ HSe' S1 S2).
    rewrite Hc in H. injection H as <- <- <- <-.
    destruct (producer_ok _ _ _ _ Hktr) as (_ & HktrIn & HktrOut).
    assert (Hfed : ~ fed x).
    { intros (n & a & H1 & H2 & H3 & H4). unfold out_names in Hx. apply in_map_iff in Hx. destruct Hx as (o & Ho & HoIn).
      apply (Hno n o H1 H2 HoIn). exists a. split; [exact H3|]. split; [congruence|]. apply (dyn_src n a H1 H3).
      apply (out_produced qk); [exact Hqk|]. rewrite H4, <- Ho. unfold out_names. apply in_map. exact HoIn. }
    exists t', c, T, T', qm, km. split; [reflexivity|]. split; [reflexivity|].
    split; [apply (dyn_src km t' HkmIn It'); apply (out_produced ktr); assumption|].
    split; [exact HqmIn|]. split; [exact It|]. split; [exact HkmIn|]. split; [exact It'|]. split; [exact HT|]. split; [exact HT'|].
    split; [reflexivity|]. split; [exact Hex|]. split; [exact Hfed|].
    intros _ Hk4 b h m d HTs. cbn [aty] in Hk4. rewrite swapped_rank in Hk4.
    destruct (rank4 km t' T' HkmIn It' Hk4 HT') as (kb & kh & kd & kn & HTs').
    destruct (HTm _ _ _ _ HTs) as [HAs HAv]. destruct (HTm' _ _ _ _ HTs') as [HBs HBv].
    destruct (Hmm _ _ _ _ HAs) as (n & HBs2 & ->). rewrite HBs in HBs2. injection HBs2 as -> -> -> ->.
    exists n. split; [exact HTs'|]. split; [reflexivity|]. intros i0 j0 u c0 Hi Hj Hu Hc0. rewrite mk4_rd by assumption.
    rewrite <- total_scale. apply total_ext. intros z Hz. rewrite HAv, HBv by assumption. ring.
  Qed.

  Lemma axis_ok sm : softmax_axis sm 4 = Done 3%Z -> In (sget (nattrs sm) "axis") [None; Some (AInt (-1)); Some (AInt 3)].
  Proof.
    unfold softmax_axis, get_attr. destruct (sget (nattrs sm) "axis") as [a|]; [|left; reflexivity].
    destruct a as [b|l|z|l|s|l|t|ts|g|gs|g2|gs2]; cbn; try discriminate.
    destruct (Z.ltb_spec z 0) as [Hz|Hz]; intros H.
    - destruct ((z + 4 <? 0) || (4 <=? z + 4))%Z%bool; [discriminate|]. injection H as H. right; left. f_equal. f_equal. lia.
    - destruct ((z <? 0) || (4 <=? z))%Z%bool; [discriminate|]. injection H as H. right; right; left. f_equal. f_equal. lia.
  Qed.

  Lemma tail_ok sm si so fm f0 v vs outs :
    In sm nodes -> ntype sm = "Softmax"%string -> nth_error (ninputs sm) 0 = Some si -> 2 <= ty_rank (aty si) ->
    softmax_axis sm (ty_rank (aty si)) = Done (Z.of_N (ty_rank (aty si)) - 1)%Z -> In so (noutputs sm) ->
    In fm nodes -> ntype fm = "MatMul"%string -> nth_error (ninputs fm) 0 = Some f0 -> aname f0 = aname so ->
    nth_error (ninputs fm) 1 = Some v ->
    args_eval static e (ninputs fm) = Some vs -> sem "MatMul"%string (nattrs fm) (length (noutputs fm)) vs = Some outs ->
    exists Z V, value si Z /\ value v V /\ In si (ninputs sm) /\ In v (ninputs fm) /\ forall b h m n, tshape Z = [b; h; m; n] -> exists e0, tshape V = [b; h; n; e0] /\
      outs = [mk4 b h m e0 (fun i j r c => total n (fun t => rd (mk4 b h m n (fun i j r c => soft n (fun k => rd Z [i; j; r; k]) c)) [i; j; r; t] * rd V [i; j; t; c])%R)].
  Proof.
    intros Hsm Hst Hsi Hr2 Hax Hso Hfm Hft Hf0 Hf0n Hv Hargs Hsem.
    destruct (al_arity sem laws _ _ _ _ _ Hsem) as [Har _]. destruct (Har ltac:(cbn; tauto)) as (S & V & ->).
    destruct (ninputs fm) as [|g0 [|g1 [|g2 l]]] eqn:Hin; cbn in Hargs; try discriminate; cbn in Hf0, Hv; try discriminate.
    2: { destruct (arg_eval static e g0); [|discriminate]. destruct (arg_eval static e g1); [|discriminate].
         destruct (arg_eval static e g2); [|discriminate]. destruct (args_eval static e l); discriminate. }
    injection Hf0 as ->. injection Hv as ->.
    destruct (arg_eval static e f0) as [o0|] eqn:E0; [|discriminate]. destruct (arg_eval static e v) as [o1|] eqn:E1; [|discriminate].
    injection Hargs as -> ->.
    assert (Hso' : In (aname f0) (out_names sm)) by (rewrite Hf0n; unfold out_names; apply in_map; exact Hso).
    assert (HeS : e (aname f0) = Some S) by (apply (dyn2 fm sm); auto; rewrite Hin; left; reflexivity).
    destruct (unary sm (aname f0) S Hsm) as (si' & Z & souts & Hsin & HZ & Hss & Hsout); [rewrite Hst; cbn; tauto|exact Hso'|exact HeS|].
    assert (si' = si) by (rewrite Hsin in Hsi; cbn in Hsi; congruence). subst si'.
    assert (HsiIn : In si (ninputs sm)) by (rewrite Hsin; left; reflexivity).
    exists Z, V. split; [exact HZ|]. split; [reflexivity|]. split; [exact HsiIn|]. split; [right; left; reflexivity|].
    intros b h m n HZs.
    assert (Hr4 : ty_rank (aty si) = 4).
    { destruct (aty si) as [dd|dd|t|t] eqn:Et; cbn in Hr2; try lia.
      pose proof (ag_ranks _ _ _ _ _ G sm si t Z Hsm HsiIn Et (arg_sub _ _ HZ)) as Hl. rewrite HZs in Hl. cbn in Hl. cbn. congruence. }
    rewrite Hr4 in Hax. rewrite Hst, (al_softmax sem laws _ _ _ _ _ _ _ HZs (axis_ok sm Hax)) in Hss. injection Hss as <-.
    assert (HS : S = mk4 b h m n (fun i j r c => soft n (fun k => rd Z [i; j; r; k]) c)) by (apply Hsout; reflexivity).
    assert (HSs : tshape S = [b; h; m; n]) by (rewrite HS; reflexivity).
    destruct (ag_batch _ _ _ _ _ G fm f0 v S V b h m n Hfm Hft Hin (arg_sub _ _ E0) (arg_sub _ _ E1) HSs) as [e0 HVs].
    exists e0. split; [exact HVs|]. rewrite (al_matmul sem laws _ _ _ _ _ _ _ _ _ HSs HVs) in Hsem. injection Hsem as <-. rewrite HS. reflexivity.
  Qed.

  Definition mask_arg (mask : option arg) (oM : list (option rt)) (Z X : rt) (r : R) : Prop :=
    match mask with
    | None => oM = [] /\ times X Z r
    | Some mk => exists M, oM = [Some M] /\ value mk M /\ shifted X Z r M
    end.

  (** The Attention operator gives what the final MatMul gives. *)
  Lemma attention_value attrs o Q K V X Z mask oM r0 r s b h m d outs :
    tshape Q = [b; h; m; d] -> scores Q K X r0 -> mask_arg mask oM Z X r ->
    attrs = [("scale"%string, AFloat (bits32 (as_f32 s)))] -> exact32 s (r0 * r)%R ->
    (forall b h m n, tshape Z = [b; h; m; n] -> exists e0, tshape V = [b; h; n; e0] /\
      outs = [mk4 b h m e0 (fun i j r c => total n (fun t => rd (mk4 b h m n (fun i j r c => soft n (fun k => rd Z [i; j; r; k]) c)) [i; j; r; t] * rd V [i; j; t; c])%R)]) ->
    sem "Attention"%string attrs o ([Some Q; Some K; Some V] ++ oM) = Some outs.
  Proof.
    intros HQ Hsc Hm -> [Hfin Hex] Hout. destruct (Hsc _ _ _ _ HQ) as (n & HK & HX & HXv).
    assert (Hscale : forall d, scale_is [("scale"%string, AFloat (bits32 (as_f32 s)))] d (r0 * r)%R).
    { intros d0. left. exists (bits32 (as_f32 s)). split; [reflexivity|]. rewrite bits32_real by exact Hfin. symmetry. exact Hex. }
    unfold mask_arg in Hm. destruct mask as [mk|].
    - destruct Hm as (M & -> & _ & Hsh). destruct (Hsh _ _ _ _ HX) as (HZ & Hfit & HZv).
      destruct (Hout _ _ _ _ HZ) as (e0 & HV & ->). destruct (mask_ok _ _ _ _ _ Hfit) as (s4 & H4 & Hb4 & Hbias).
      cbn [app]. rewrite (proj2 (al_attention sem laws _ o Q K V b h m n d e0 (r0 * r)%R HQ HK HV (Hscale d)) M s4 H4 Hb4).
      f_equal. f_equal. symmetry. apply final_eq. intros i j u c Hi Hj Hu Hc. rewrite HZv, HXv, Hbias by assumption. ring.
    - destruct Hm as [-> Ht]. destruct (Ht _ _ _ _ HX) as (HZ & HZv). destruct (Hout _ _ _ _ HZ) as (e0 & HV & ->).
      cbn [app]. rewrite (proj1 (al_attention sem laws _ o Q K V b h m n d e0 (r0 * r)%R HQ HK HV (Hscale d))).
      f_equal. f_equal. symmetry. apply final_eq. intros i j u c Hi Hj Hu Hc. rewrite HZv, HXv by assumption. unfold no_bias. ring.
  Qed.

  Lemma mask_given mask Z X r :
    match mask with
    | None => times X Z r
    | Some mk => exists M add, value mk M /\ In add nodes /\ In mk (ninputs add) /\ shifted X Z r M
    end -> exists oM, mask_arg mask oM Z X r /\
      args_eval static e (match mask with Some m => [m] | None => [] end) = Some oM.
  Proof.
    destruct mask as [mk|]; intros H.
    - destruct H as (M & add & HM & _ & _ & Hsh). exists [Some M]. split; [exists M; auto|]. cbn. rewrite HM. reflexivity.
    - exists []. split; [split; auto|reflexivity].
  Qed.

  Lemma std_core sm si x mask scale qi qk q0 k pre q sc so fm f0 v vs outs :
    In sm nodes -> ntype sm = "Softmax"%string -> nth_error (ninputs sm) 0 = Some si -> 2 <= ty_rank (aty si) ->
    softmax_axis sm (ty_rank (aty si)) = Done (Z.of_N (ty_rank (aty si)) - 1)%Z ->
    upstream scalar nodes (aname si) = Done (x, mask, scale) ->
    producer nodes x = Some (qi, qk) -> ntype qk = "MatMul"%string ->
    standard_k scalar nodes qk = Done (q0, k, pre) ->
    ((exists s, scale = None /\ pre = Some (q, s) /\ sc = Some s) \/ (q = q0 /\ sc = scale)) ->
    ty_rank (aty q) = 4 -> ty_rank (aty k) = 4 -> In so (noutputs sm) ->
    In fm nodes -> ntype fm = "MatMul"%string ->
    nth_error (ninputs fm) 0 = Some f0 -> aname f0 = aname so -> nth_error (ninputs fm) 1 = Some v ->
    nattrs (attention_node fm q k v mask sc) <> [] ->
    args_eval static e (ninputs fm) = Some vs -> sem "MatMul"%string (nattrs fm) (length (noutputs fm)) vs = Some outs ->
    let att := attention_node fm q k v mask sc in
    exists vs', args_eval static e (ninputs att) = Some vs' /\ sem (ntype att) (nattrs att) (length (noutputs att)) vs' = Some outs.
  Proof.
    intros Hsm Hst Hsi Hr2 Hax Hup Hp Hmm Hstd Hsc Hq4 Hk4 Hso Hfm Hfmt Hf0 Hf0n Hv Hattr Hargs Hsem att.
    destruct (tail_ok sm si so fm f0 v vs outs Hsm Hst Hsi Hr2 Hax Hso Hfm Hfmt Hf0 Hf0n Hv Hargs Hsem) as (Z & V & HZ & HV & HsiIn & _ & Hout).
    destruct (upstream_ok sm si Z x mask scale qi qk Hsm Hst HsiIn HZ Hup Hp Hmm) as (X & r & HX & Hf & Hm).
    destruct (producer_ok _ _ _ _ Hp) as (_ & HqkIn & HqkOut).
    destruct (standard_ok qk x X q0 k pre HqkIn Hmm HqkOut HX Hstd Hk4) as (Hq0In & Q & K & HQ & HK & Hscores & Hpre).
    destruct (mask_given _ _ _ _ Hm) as (oM & HoM & HoMe).
    assert (Hgo : forall Q' r0 s, value q Q' -> (exists n, In n nodes /\ In q (ninputs n)) -> scores Q' K X r0 -> sc = Some s -> exact32 s (r0 * r)%R ->
      exists vs', args_eval static e (ninputs att) = Some vs' /\ sem (ntype att) (nattrs att) (length (noutputs att)) vs' = Some outs).
    { intros Q' r0 s HQ' (n & Hn & Hqn) Hsco Es Hex. exists ([Some Q'; Some K; Some V] ++ oM). split.
      - unfold att. cbn [attention_node ninputs app]. cbn [args_eval]. rewrite HQ', HK, HV, HoMe. reflexivity.
      - destruct (rank4 n q Q' Hn Hqn Hq4 HQ') as (b & h & m & d & HQs). unfold att. cbn [attention_node ntype nattrs]. rewrite Es.
        eapply attention_value; try eassumption. reflexivity. }
    destruct Hsc as [(s & -> & -> & ->)|[-> ->]].
    - destruct (Hpre q s eq_refl) as (Q' & m & Hm1 & Hm2 & HQ' & Hex & Hsco). cbn in Hf. subst r.
      apply (Hgo Q' (B2R s) s HQ'); [eauto|exact (Hsco Hq4)|reflexivity|]. rewrite Rmult_1_r. exact Hex.
    - destruct scale as [s|]; [|cbn in Hattr; contradiction]. destruct Hf as [Hex _].
      apply (Hgo Q 1%R s HQ); [eauto|exact Hscores|reflexivity|]. rewrite Rmult_1_l. eapply Hex; eassumption.
  Qed.

  Lemma pre_core sm si x mask scale qi qk q k pre extras so fm f0 v vs outs :
    In sm nodes -> ntype sm = "Softmax"%string -> nth_error (ninputs sm) 0 = Some si -> 2 <= ty_rank (aty si) ->
    softmax_axis sm (ty_rank (aty si)) = Done (Z.of_N (ty_rank (aty si)) - 1)%Z ->
    upstream scalar nodes (aname si) = Done (x, mask, scale) ->
    producer nodes x = Some (qi, qk) -> ntype qk = "MatMul"%string ->
    prescaled_qk scalar nodes qk qi = Done (q, k, pre, extras) ->
    ty_rank (aty q) = 4 -> ty_rank (aty k) = 4 -> In so (noutputs sm) ->
    In fm nodes -> ntype fm = "MatMul"%string ->
    nth_error (ninputs fm) 0 = Some f0 -> aname f0 = aname so -> nth_error (ninputs fm) 1 = Some v ->
    args_eval static e (ninputs fm) = Some vs -> sem "MatMul"%string (nattrs fm) (length (noutputs fm)) vs = Some outs ->
    let att := attention_node fm q k v mask (match pre with Some _ => pre | None => scale end) in
    exists kt KT kc vs', extras = [(qi, corrected qk kt k)] /\ k = mkArg (new_name qk) (swapped_ty (aty kt)) (asrc kt) /\
      (asrc kt = VConstant \/ asrc kt = VDynamic) /\ value kt KT /\ (exists X, e x = Some X) /\
      sem "Transpose"%string (nattrs (corrected qk kt k)) 1%nat [Some KT] = Some [kc] /\
      args_eval static (bind1 e (new_name qk) kc) (ninputs att) = Some vs' /\
      sem (ntype att) (nattrs att) (length (noutputs att)) vs' = Some outs.
  Proof.
    intros Hsm Hst Hsi Hr2 Hax Hup Hp Hmm Hpres Hq4 Hk4 Hso Hfm Hfmt Hf0 Hf0n Hv Hargs Hsem att.
    destruct (tail_ok sm si so fm f0 v vs outs Hsm Hst Hsi Hr2 Hax Hso Hfm Hfmt Hf0 Hf0n Hv Hargs Hsem) as (Z & V & HZ & HV & HsiIn & _ & Hout).
    destruct (upstream_ok sm si Z x mask scale qi qk Hsm Hst HsiIn HZ Hup Hp Hmm) as (X & r & HX & Hf & Hm).
    destruct (producer_ok _ _ _ _ Hp) as (_ & HqkIn & HqkOut).
    destruct (prescaled_ok qk qi x X q k pre extras HqkIn Hmm HqkOut HX Hpres) as
      (kt & c & Q & KT & qm & km & HE1 & HE2 & Hsrc & Hqm & Hqi & Hkm & Hki & HQ & HKT & Hpre & Hex & Hfed & Hprod).
    destruct scale as [s|]; [destruct Hf as [_ Hf]; contradiction|]. cbn in Hf. subst r.
    assert (Hkt4 : ty_rank (aty kt) = 4) by (rewrite HE2 in Hk4; cbn [aty] in Hk4; rewrite swapped_rank in Hk4; exact Hk4).
    destruct (rank4 qm q Q Hqm Hqi Hq4 HQ) as (b & h & m & d & HQs).
    specialize (Hprod Hq4 Hk4). destruct (Hprod _ _ _ _ HQs) as (n & HKTs & HXs & HXv).
    set (kc := mk4 b h n d (fun i j r c => rd KT [i; j; c; r])).
    assert (Hsc : scores Q kc X (B2R c * B2R c)%R).
    { intros b' h' m' d' HQs'. rewrite HQs in HQs'. injection HQs' as <- <- <- <-. exists n. split; [reflexivity|]. split; [exact HXs|].
      intros i j u c0 Hi Hj Hu Hc. rewrite HXv by assumption. f_equal. apply total_ext. intros t Ht. unfold kc. rewrite mk4_rd by assumption. reflexivity. }
    destruct (mask_given _ _ _ _ Hm) as (oM & HoM & HoMe).
    assert (Hnew : e (new_name qk) = None).
    { destruct (e (new_name qk)) as [w|] eqn:E; [|reflexivity]. apply Hsub in E. rewrite (proj2 (ag_names _ _ _ _ _ G) qk HqkIn) in E. discriminate. }
    assert (Hmono : forall y w, e y = Some w -> bind1 e (new_name qk) kc y = Some w).
    { intros y w Hy. unfold bind1. destruct (String.eqb_spec (new_name qk) y) as [<-|]; [congruence|exact Hy]. }
    assert (Hmono1 : forall a ov, arg_eval static e a = Some ov -> arg_eval static (bind1 e (new_name qk) kc) a = Some ov).
    { intros a ov H. unfold arg_eval in *. destruct (asrc a); auto; destruct (e (aname a)) eqn:E; cbn in H; try discriminate; rewrite (Hmono _ _ E); exact H. }
    exists kt, KT, kc, ([Some Q; Some kc; Some V] ++ oM). split; [exact HE1|]. split; [exact HE2|]. split; [exact Hsrc|]. split; [exact HKT|].
    split; [eauto|]. split; [|split].
    - apply (al_swap sem laws _ _ _ _ _ _ _ HKTs). unfold corrected. cbn [nattrs]. rewrite Hkt4. reflexivity.
    - unfold att. cbn [attention_node ninputs app]. cbn [args_eval]. rewrite (Hmono1 _ _ HQ), (Hmono1 _ _ HV).
      rewrite (args_eval_mono static _ e (bind1 e (new_name qk) kc) oM Hmono HoMe).
      assert (Hk : arg_eval static (bind1 e (new_name qk) kc) k = Some (Some kc)).
      { rewrite HE2. unfold arg_eval. cbn [asrc aname]. destruct Hsrc as [-> | ->]; unfold bind1; rewrite String.eqb_refl; reflexivity. }
      rewrite Hk. reflexivity.
    - unfold att. cbn [attention_node ntype nattrs]. rewrite Hpre.
      eapply attention_value; try eassumption; [reflexivity|]. rewrite Rmult_1_r. exact Hex.
  Qed.
End Match.
