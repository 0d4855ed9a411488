(** Lemmas about lines of tensors, first greatest elements, [scatter] and softmax. *)
From Coq Require Import Lia Lra ZifyBool ZifyNat ZifyN.
From Verif Require Import Tensor_Proofs ShapeOps_Proofs Index_Proofs Permute_Proofs Fold_Proofs AxisOps_Proofs TensorRun_Model TensorRun_Proofs MatMul_Proofs MatMul_Nodes Lines_Model.
Import Lines_Spec Tensor_Spec.
Local Open Scope N_scope.

(** ** Lines *)
Lemma mapo_nth {A} (m : list A) : mapo (fun k => nth_error m (N.to_nat k)) (upto (N.of_nat (length m))) = Some m.
Proof.
  unfold upto. rewrite Nat2N.id.
  assert (H : forall (pre l : list A), mapo (fun k => nth_error (pre ++ l) (N.to_nat k)) (map N.of_nat (seq (length pre) (length l))) = Some l).
  { intros pre l. revert pre. induction l as [|v l IH]; intros pre; [reflexivity|]. cbn [length seq map mapo]. rewrite Nat2N.id, nth_error_app2, Nat.sub_diag by lia. cbn [nth_error].
    specialize (IH (pre ++ [v])). rewrite app_length in IH. cbn [length] in IH. rewrite Nat.add_1_r, <- app_assoc in IH. cbn [app] in IH. rewrite IH. reflexivity. }
  exact (H [] m).
Qed.
Lemma mapo_len {A B} (f : A -> option B) : forall l m, mapo f l = Some m -> length m = length l.
Proof. induction l as [|a l IH]; cbn; intros m H; [injection H as <-; reflexivity|]. destruct (f a), (mapo f l) eqn:E; try discriminate. injection H as <-. cbn. rewrite (IH l0 eq_refl). reflexivity. Qed.
Lemma upto_len n : length (upto n) = N.to_nat n.
Proof. unfold upto. rewrite map_length, seq_length. reflexivity. Qed.
Lemma mapo_same {A B} (f g : A -> option B) l : (forall x, In x l -> f x = g x) -> mapo f l = mapo g l.
Proof. induction l as [|a l IH]; cbn; intros H; [reflexivity|]. rewrite (H a) by (left; reflexivity). rewrite IH by (intros; apply H; right; assumption). reflexivity. Qed.

Lemma valid_cons_mid P d Q p k q : valid_idx P p -> k < d -> valid_idx Q q -> valid_idx (P ++ d :: Q) (p ++ k :: q).
Proof. intros Hp Hk Hq. apply Forall2_app; [exact Hp|]. constructor; assumption. Qed.
Lemma valid_split P d Q idx : valid_idx (P ++ d :: Q) idx -> exists p k q, idx = p ++ k :: q /\ valid_idx P p /\ k < d /\ valid_idx Q q.
Proof.
  unfold valid_idx. intros H. apply Forall2_app_inv_r in H. destruct H as (p & r & Hp & Hr & ->). inversion Hr; subst. eauto 8.
Qed.
Lemma parts (p q : list N) k a : length p = a -> firstn a (p ++ k :: q) = p /\ skipn (S a) (p ++ k :: q) = q /\ nth a (p ++ k :: q) 0 = k /\ skipn a (p ++ k :: q) = k :: q.
Proof.
  intros <-. rewrite firstn_app, firstn_all, Nat.sub_diag, app_nil_r. rewrite app_nth2, Nat.sub_diag by lia. cbn [nth].
  repeat split; [|]; rewrite skipn_app; [replace (S (length p) - length p)%nat with 1%nat by lia|rewrite Nat.sub_diag]; rewrite skipn_all2 by lia; reflexivity.
Qed.
Lemma valid_len s idx : valid_idx s idx -> length idx = length s.
Proof. apply Forall2_length. Qed.

Lemma line_some {A} (x : tensor A) P d Q p q : twf x -> tshape x = P ++ d :: Q -> valid_idx P p -> valid_idx Q q ->
  exists l, line x d p q = Some l /\ length l = N.to_nat d.
Proof.
  intros W E Hp Hq. unfold line. destruct (Tensor_Proofs.mapo_Some (fun k => get x (p ++ k :: q)) (upto d)) as [l Hl].
  { intros k Hk. apply upto_In in Hk. destruct (get_valid x (p ++ k :: q) W) as (v & Gv & _); [rewrite E; apply valid_cons_mid; assumption|]. eauto. }
  exists l. split; [exact Hl|]. rewrite (mapo_len _ _ _ Hl), upto_len. reflexivity.
Qed.
Lemma line_nth {A} (x : tensor A) d p q l k : line x d p q = Some l -> k < d -> get x (p ++ k :: q) = nth_error l (N.to_nat k).
Proof.
  unfold line, upto. intros H Hk. assert (G : forall n m l, mapo (fun k => get x (p ++ k :: q)) (map N.of_nat (seq n m)) = Some l -> forall i, (i < m)%nat -> get x (p ++ N.of_nat (n + i) :: q) = nth_error l i).
  { clear. intros n m. revert n. induction m as [|m IH]; intros n l H i Hi; [lia|]. cbn in H.
    destruct (get x (p ++ N.of_nat n :: q)) as [v|] eqn:E; [|discriminate]. destruct (mapo _ _) as [vs|] eqn:E2; [|discriminate]. injection H as <-.
    destruct i as [|i]; [rewrite Nat.add_0_r; exact E|]. cbn [nth_error]. rewrite <- (IH _ _ E2 i) by lia. do 3 f_equal. lia. }
  specialize (G 0%nat (N.to_nat d) l H (N.to_nat k) ltac:(lia)). cbn in G. rewrite N2Nat.id in G. exact G.
Qed.
Lemma line_of {A} (z : tensor A) d p q (m : list A) : length m = N.to_nat d -> (forall k, k < d -> get z (p ++ k :: q) = nth_error m (N.to_nat k)) -> line z d p q = Some m.
Proof.
  intros L H. unfold line. rewrite <- (mapo_nth m). replace (N.of_nat (length m)) with d by lia. apply mapo_same. intros k Hk. apply H. apply upto_In. exact Hk.
Qed.

Lemma b_lines_ok {A B} (f : list A -> option (list B)) size axis (x : tensor A) P d Q :
  twf x -> tshape x = P ++ d :: Q -> length P = N.to_nat axis ->
  (forall l, length l = N.to_nat d -> exists m, f l = Some m /\ length m = N.to_nat (size d)) ->
  exists z, b_lines f size axis x = Some z /\ twf z /\ tshape z = P ++ size d :: Q /\
    forall p q, valid_idx P p -> valid_idx Q q -> exists l m, line x d p q = Some l /\ line z (size d) p q = Some m /\ f l = Some m.
Proof.
  intros W E La Hf. destruct (parts P Q d (N.to_nat axis) La) as (F1 & _ & _ & F2). unfold b_lines. rewrite E, F1, F2.
  match goal with |- context [tab _ ?h] => set (g := h) end.
  assert (G : forall p k q, valid_idx P p -> valid_idx Q q -> exists l m, line x d p q = Some l /\ f l = Some m /\ length m = N.to_nat (size d) /\ g (p ++ k :: q) = nth_error m (N.to_nat k)).
  { intros p k q Hp Hq. destruct (line_some x P d Q p q W E Hp Hq) as (l & Hl & Ll). destruct (Hf l Ll) as (m & Hm & Lm).
    exists l, m. repeat split; try assumption. unfold g. pose proof (valid_len _ _ Hp) as Lp. destruct (parts p q k (N.to_nat axis) ltac:(congruence)) as (-> & -> & -> & _).
    rewrite Hl. cbn [obind]. rewrite Hm. reflexivity. }
  destruct (tab_Some (P ++ size d :: Q) g) as [z Hz].
  { intros idx Hi. apply valid_split in Hi. destruct Hi as (p & k & q & -> & Hp & Hk & Hq). destruct (G p k q Hp Hq) as (l & m & _ & _ & Lm & ->).
    destruct (nth_error m (N.to_nat k)) eqn:E1; [eauto|]. apply nth_error_None in E1. lia. }
  exists z. destruct (tab_wf _ _ _ Hz) as [Wz Sz]. repeat split; try assumption.
  intros p q Hp Hq. destruct (G p 0 q Hp Hq) as (l & m & Hl & Hm & Lm & _). exists l, m. repeat split; try assumption.
  apply line_of; [exact Lm|]. intros k Hk. rewrite (get_tab _ _ _ _ Hz) by (apply valid_cons_mid; assumption).
  destruct (G p k q Hp Hq) as (l' & m' & Hl' & Hm' & _ & ->). congruence.
Qed.

(** ** The first greatest element *)
Section Best.
  Context {T : Type} (le : T -> T -> bool).
  Hypothesis total : forall a b, le a b = true \/ le b a = true.
  Hypothesis trans : forall a b c, le a b = true -> le b c = true -> le a c = true.
  Lemma best_ok : forall l pre v i, nth_error pre i = Some v -> (forall j w, nth_error pre j = Some w -> le w v = true) ->
    (forall j w, (j < i)%nat -> nth_error pre j = Some w -> le v w = false) -> first_best le (pre ++ l) (best le v i (length pre) l).
  Proof.
    induction l as [|w l IH]; intros pre v i Hv Hge Hfirst; cbn [best].
    - rewrite app_nil_r. exists v. auto.
    - assert (Li : (i < length pre)%nat) by (apply nth_error_Some; congruence).
      replace (S (length pre)) with (length (pre ++ [w])) by (rewrite app_length; cbn; lia).
      replace (pre ++ w :: l) with ((pre ++ [w]) ++ l) by (rewrite <- app_assoc; reflexivity).
      assert (N : forall j u, nth_error (pre ++ [w]) j = Some u -> nth_error pre j = Some u \/ j = length pre /\ u = w).
      { intros j u H. destruct (Nat.lt_ge_cases j (length pre)) as [Hj|Hj]; [rewrite nth_error_app1 in H by exact Hj; auto|].
        rewrite nth_error_app2 in H by exact Hj. destruct (j - length pre)%nat as [|c] eqn:Ec; cbn in H; [injection H as <-; right; split; [lia|reflexivity]|destruct c; discriminate]. }
      destruct (le w v) eqn:E; apply IH.
      + rewrite nth_error_app1 by exact Li. exact Hv.
      + intros j u H. destruct (N j u H) as [H'|[_ ->]]; [eauto|exact E].
      + intros j u Hj H. destruct (N j u H) as [H'|[-> ->]]; [eauto|lia].
      + rewrite nth_error_app2, Nat.sub_diag by lia. reflexivity.
      + assert (Evw : le v w = true) by (destruct (total v w); congruence).
        intros j u H. destruct (N j u H) as [H'|[_ ->]]; [eauto|]. destruct (total w w); assumption.
      + intros j u Hj H. destruct (N j u H) as [H'|[-> ->]]; [|lia].
        destruct (le w u) eqn:E2; [|reflexivity]. rewrite (trans w u v E2 (Hge j u H')) in E. discriminate.
  Qed.
  Lemma best_line_ok l : l <> [] -> exists i, best_line le l = Some [Z.of_nat i] /\ first_best le l i.
  Proof.
    destruct l as [|v r]; [contradiction|]. intros _. eexists. split; [reflexivity|].
    apply (best_ok r [v] v 0); [reflexivity| |intros; lia]. intros [|[|j]] w H; cbn in H; try discriminate. injection H as <-. destruct (total v v); assumption.
  Qed.
  Lemma b_arg_ok axis (x : tensor T) P d Q : twf x -> tshape x = P ++ d :: Q -> length P = N.to_nat axis -> 0 < d ->
    exists z, b_arg le axis x = Some z /\ twf z /\ tshape z = P ++ 1 :: Q /\
      forall p q, valid_idx P p -> valid_idx Q q -> exists l m, line x d p q = Some l /\ line z 1 p q = Some m /\ arg_line le l m.
  Proof.
    intros W E La Hd. destruct (b_lines_ok (best_line le) (fun _ => 1) axis x P d Q W E La) as (z & Hz & Wz & Sz & Lz).
    { intros l Hl. destruct (best_line_ok l) as (i & Hi & _); [intros ->; cbn in Hl; lia|]. exists [Z.of_nat i]. auto. }
    exists z. repeat split; try assumption. intros p q Hp Hq. destruct (Lz p q Hp Hq) as (l & m & Hl & Hm & Hf). exists l, m. repeat split; try assumption.
    destruct (best_line_ok l) as (i & Hi & Hb). { intros ->. destruct (line_some x P d Q p q W E Hp Hq) as (l' & Hl' & Ll'). rewrite Hl in Hl'. injection Hl' as <-. cbn in Ll'. lia. }
    rewrite Hi in Hf. injection Hf as <-. exists i. auto.
  Qed.
End Best.

(** ** [scatter] *)
Section Scatter.
  Context {A : Type} (op : A -> A -> A).
  Lemma put_get (x : tensor A) t v : twf x -> valid_idx (tshape x) t -> twf (put x t v) /\ forall t', valid_idx (tshape x) t' -> get (put x t v) t' = if list_eq_dec N.eq_dec t t' then Some v else get x t'.
  Proof.
    intros W Ht. split.
    - unfold twf, put. cbn [tshape tdata]. rewrite AxisOps_Proofs.set_nth_length. exact W.
    - intros t' Ht'. unfold get, put. cbn [tshape tdata]. rewrite AxisOps_Proofs.set_nth_nth.
      destruct (list_eq_dec N.eq_dec t t') as [<-|Hne].
      + rewrite Nat.eqb_refl. destruct (get_valid x t W Ht) as (w & Gw & _). unfold get in Gw. rewrite Gw. reflexivity.
      + destruct (Nat.eqb_spec (N.to_nat (offset (tshape x) t')) (N.to_nat (offset (tshape x) t))) as [E|E]; [|reflexivity].
        exfalso. apply Hne. apply (offset_inj (tshape x)); [assumption|assumption|lia].
  Qed.
  Variables (target : list N -> option (list N)) (u : tensor A) (s : list N).
  Definition hits (t : list N) (L : list (list N)) : list A :=
    flat_map (fun j => match target j, get u j with Some t', Some v => if list_eq_dec N.eq_dec t' t then [v] else [] | _, _ => [] end) L.
  Lemma scatter_fold : forall L (x : tensor A), twf x -> tshape x = s ->
    (forall j, In j L -> exists t v, target j = Some t /\ valid_idx s t /\ get u j = Some v) ->
    exists y, fold_left (fun acc j => obind acc (fun y => obind (target j) (fun t => obind (get u j) (fun v => obind (get y t) (fun w => Some (put y t (op w v))))))) L (Some x) = Some y /\
      twf y /\ tshape y = s /\ forall t, valid_idx s t -> get y t = option_map (fun w => fold_left op (hits t L) w) (get x t).
  Proof.
    induction L as [|j L IH]; intros x W E H; cbn [fold_left hits flat_map].
    - exists x. repeat split; try assumption. intros t Ht. destruct (get x t); reflexivity.
    - destruct (H j (or_introl eq_refl)) as (t0 & v & Ht0 & Vt0 & Gv). rewrite Ht0, Gv. cbn [obind].
      destruct (get_valid x t0 W) as (w & Gw & _); [rewrite E; exact Vt0|]. rewrite Gw. cbn [obind].
      destruct (put_get x t0 (op w v) W) as [Wp Gp]; [rewrite E; exact Vt0|].
      destruct (IH (put x t0 (op w v)) Wp E) as (y & Hy & Wy & Sy & Gy); [intros; apply H; right; assumption|].
      exists y. repeat split; try assumption. intros t Ht. rewrite Gy by exact Ht. rewrite Gp by (rewrite E; exact Ht).
      destruct (list_eq_dec N.eq_dec t0 t) as [<-|Hne]; [rewrite Gw; reflexivity|]. destruct (get x t); reflexivity.
  Qed.
End Scatter.
Lemma flat_map_none {A B} (f : A -> list B) L : (forall j, In j L -> f j = []) -> flat_map f L = [].
Proof. induction L as [|j L IH]; cbn; intros H; [reflexivity|]. rewrite H by (left; reflexivity). apply IH. intros. apply H. right. assumption. Qed.
Lemma flat_map_one {A B} (f : A -> list B) L j0 : NoDup L -> In j0 L -> (forall j, In j L -> j <> j0 -> f j = []) -> flat_map f L = f j0.
Proof.
  induction L as [|j L IH]; intros ND Hin H; [contradiction|]. inversion ND; subst. cbn [flat_map]. destruct Hin as [->|Hin].
  - rewrite flat_map_none; [apply app_nil_r|]. intros j Hj. apply H; [right; exact Hj|intros ->; contradiction].
  - rewrite (H j) by (try (left; reflexivity); intros ->; contradiction). apply IH; [assumption|assumption|]. intros. apply H; [right|]; assumption.
Qed.
Lemma fill_get {A} s (v : A) : twf (b_fill s v) /\ forall t, valid_idx s t -> get (b_fill s v) t = Some v.
Proof.
  split; [unfold twf; cbn; apply repeat_length|]. intros t Ht. unfold get, b_fill. cbn [tshape tdata]. pose proof (offset_lt _ _ Ht).
  rewrite nth_error_repeat; [reflexivity|lia].
Qed.

Lemma same_but_ok P Q d d' axis : length P = N.to_nat axis -> same_but axis (P ++ d :: Q) (P ++ d' :: Q) = true.
Proof.
  intros La. unfold same_but. destruct (parts P Q d (N.to_nat axis) La) as (-> & -> & _). destruct (parts P Q d' (N.to_nat axis) La) as (-> & -> & _).
  rewrite !app_length. cbn [length]. rewrite Nat.eqb_refl. replace (N.to_nat axis <? _)%nat with true by lia.
  destruct (list_eq_dec N.eq_dec P P); [|contradiction]. destruct (list_eq_dec N.eq_dec Q Q); [reflexivity|contradiction].
Qed.

(** The code of Hardmax. *)
Lemma hard_ok {T} (le : T -> T -> bool) (zero one : T) add axis (x : tensor T) P d Q :
  (forall a b, le a b = true \/ le b a = true) -> (forall a b c, le a b = true -> le b c = true -> le a c = true) -> add zero one = one ->
  twf x -> tshape x = P ++ d :: Q -> length P = N.to_nat axis -> 0 < d ->
  exists ix z, b_arg le axis x = Some ix /\ b_scatter add axis ix (b_fill (tshape ix) one) (b_fill (tshape x) zero) = Some z /\ twf z /\ tshape z = P ++ d :: Q /\
    forall p q, valid_idx P p -> valid_idx Q q -> exists l m, line x d p q = Some l /\ line z d p q = Some m /\ hard_line le zero one l m.
Proof.
  intros Ht Htr Hadd W E La Hd. destruct (b_arg_ok le Ht Htr axis x P d Q W E La Hd) as (ix & Hix & Wi & Si & Li).
  exists ix. unfold b_scatter. cbn [b_fill tshape]. rewrite Si, E.
  rewrite same_but_ok by exact La. destruct (list_eq_dec N.eq_dec (P ++ 1 :: Q) (P ++ 1 :: Q)) as [_|?]; [|contradiction]. cbn [andb].
  destruct (fill_get (P ++ 1 :: Q) one) as [_ Gu]. destruct (fill_get (P ++ d :: Q) zero) as [Wx Gx].
  assert (TG : forall p q, valid_idx P p -> valid_idx Q q -> exists l i, line x d p q = Some l /\ first_best le l i /\ (i < N.to_nat d)%nat /\ b_target axis ix (P ++ d :: Q) (p ++ 0 :: q) = Some (p ++ N.of_nat i :: q)).
  { intros p q Hp Hq. destruct (Li p q Hp Hq) as (l & m & Hl & Hm & i & -> & Hb). exists l, i. split; [exact Hl|]. split; [exact Hb|].
    assert (Hi : (i < N.to_nat d)%nat). { destruct (line_some x P d Q p q W E Hp Hq) as (l' & Hl' & Ll'). rewrite Hl in Hl'. injection Hl' as <-. destruct Hb as (v & Hv & _). rewrite <- Ll'. apply nth_error_Some. congruence. }
    split; [exact Hi|]. unfold b_target. rewrite (line_nth _ _ _ _ _ 0 Hm) by lia. cbn [nth_error N.to_nat].
    rewrite nth_error_app2 by lia. rewrite La, Nat.sub_diag. cbn [nth_error].
    replace ((0 <=? Z.of_nat i)%Z && (Z.of_nat i <? Z.of_N d)%Z)%bool with true by lia.
    pose proof (valid_len _ _ Hp) as Lp. destruct (parts p q 0 (N.to_nat axis) ltac:(congruence)) as (-> & -> & _). do 3 f_equal. lia. }
  destruct (scatter_fold add (b_target axis ix (P ++ d :: Q)) (b_fill (P ++ 1 :: Q) one) (P ++ d :: Q) (indices (P ++ 1 :: Q)) (b_fill (P ++ d :: Q) zero) Wx eq_refl) as (z & Hz & Wz & Sz & Gz).
  { intros j Hj. apply indices_In in Hj. pose proof Hj as Hj'. apply valid_split in Hj. destruct Hj as (p & k & q & -> & Hp & Hk & Hq). assert (k = 0) by lia; subst k.
    destruct (TG p q Hp Hq) as (l & i & _ & _ & Hi & Et). exists (p ++ N.of_nat i :: q), one. split; [exact Et|]. split; [apply valid_cons_mid; try assumption; lia|]. apply Gu. exact Hj'. }
  exists z. split; [exact Hix|]. split; [exact Hz|]. split; [exact Wz|]. split; [exact Sz|].
  intros p q Hp Hq. destruct (TG p q Hp Hq) as (l & i & Hl & Hb & Hi & Et).
  destruct (line_some x P d Q p q W E Hp Hq) as (l' & Hl' & Ll'). rewrite Hl in Hl'. injection Hl' as <-.
  eexists l, _. split; [exact Hl|]. split; [|exists i; split; [exact Hb|reflexivity]].
  apply line_of; [rewrite map_length, seq_length; exact Ll'|]. intros k Hk.
  rewrite Gz by (apply valid_cons_mid; assumption). rewrite Gx by (apply valid_cons_mid; assumption). cbn [option_map].
  rewrite nth_error_map. rewrite (nth_error_nth' (seq 0 (length l)) 0%nat) by (rewrite seq_length; lia). rewrite seq_nth by lia. cbn [option_map plus]. f_equal.
  unfold hits. rewrite (flat_map_one _ _ (p ++ 0 :: q)).
  - rewrite Et. rewrite Gu by (apply valid_cons_mid; try assumption; lia).
    destruct (list_eq_dec N.eq_dec (p ++ N.of_nat i :: q) (p ++ k :: q)) as [Ek|Ek].
    + apply app_inv_head in Ek. injection Ek as Ek. replace (Nat.eqb (N.to_nat k) i) with true by lia. cbn. exact Hadd.
    + destruct (Nat.eqb_spec (N.to_nat k) i) as [Ek'|Ek']; [|reflexivity]. exfalso. apply Ek. do 2 f_equal. lia.
  - apply indices_NoDup.
  - apply indices_In. apply valid_cons_mid; try assumption; lia.
  - intros j Hj Hne. apply indices_In in Hj. apply valid_split in Hj. destruct Hj as (p' & k' & q' & -> & Hp' & Hk' & Hq'). assert (k' = 0) by lia; subst k'.
    destruct (TG p' q' Hp' Hq') as (l2 & i2 & _ & _ & Hi2 & Et2). rewrite Et2, Gu by (apply valid_cons_mid; try assumption; lia).
    destruct (list_eq_dec N.eq_dec (p' ++ N.of_nat i2 :: q') (p ++ k :: q)) as [Ek|Ek]; [|reflexivity].
    exfalso. apply Hne. pose proof (valid_len _ _ Hp). pose proof (valid_len _ _ Hp').
    assert (E1 : p' = p). { destruct (parts p' q' (N.of_nat i2) (length p') eq_refl) as (<- & _). rewrite Ek. replace (length p') with (length p) by congruence. apply (parts p q k _ eq_refl). }
    subst p'. apply app_inv_head in Ek. injection Ek as _ ->. reflexivity.
Qed.

(** ** Softmax *)
Section Soft.
  Local Open Scope R_scope.
  Lemma sum_shift m l : fold_right Rplus 0 (map (fun v => exp (v - m)) l) = exp (- m) * exps l.
  Proof. unfold exps. induction l as [|v l IH]; cbn; [ring|]. rewrite IH. unfold Rminus. rewrite exp_plus. ring. Qed.
  Lemma exps_pos l : l <> [] -> 0 < exps l.
  Proof.
    assert (H : forall l, 0 <= exps l). { clear. induction l as [|v l IH]; cbn; [lra|]. pose proof (exp_pos v). unfold exps in *. lra. }
    destruct l as [|v l]; [contradiction|]. intros _. cbn. pose proof (exp_pos v). specialize (H l). unfold exps in *. lra.
  Qed.
  Lemma soft_ok l : soft_line l (b_softmax l).
  Proof.
    unfold soft_line, b_softmax. cbv zeta. rewrite map_map. set (m := peak l). clearbody m. rewrite sum_shift. destruct l as [|v0 l0]; [reflexivity|].
    pose proof (exps_pos (v0 :: l0) ltac:(discriminate)) as Hp. set (l := v0 :: l0) in *. apply map_ext. intros v. unfold Rminus. rewrite exp_plus.
    field. split; [lra|]. pose proof (exp_pos (- m)). lra.
  Qed.
  Lemma log_soft_ok l : log_soft_line l (b_log_softmax l).
  Proof.
    unfold log_soft_line, b_log_softmax. cbv zeta. rewrite !map_map. set (m := peak l). clearbody m. rewrite sum_shift. destruct l as [|v0 l0]; [reflexivity|].
    pose proof (exps_pos (v0 :: l0) ltac:(discriminate)) as Hp. set (l := v0 :: l0) in *. apply map_ext. intros v.
    rewrite ln_mult by (try apply exp_pos; exact Hp). rewrite ln_exp. unfold Rdiv. rewrite ln_mult; [|apply exp_pos|apply Rinv_0_lt_compat; exact Hp].
    rewrite ln_exp, ln_Rinv by exact Hp. ring.
  Qed.
End Soft.

(** ** Lines of the matrix and lines of the tensor *)
Lemma rows_of_lines {A B} (f : list A -> list B -> Prop) axis (x : tensor A) (z : tensor B) :
  tshape z = tshape x -> prodN (skipn (S (position (length (tshape x)) axis)) (tshape x)) = 1 -> by_lines f axis x z -> by_rows f axis x z.
Proof.
  intros Ez H1 (Wz & Ha & P & d & Q & d' & Ex & LP & Ez' & H). set (a := position (length (tshape x)) axis) in *.
  destruct (parts P Q d a LP) as (F1 & F3 & _ & F2). rewrite Ex, F3 in H1.
  assert (Ed : d' = d). { rewrite Ez', Ex in Ez. apply app_inv_head in Ez. injection Ez. auto. } subst d'.
  unfold by_rows. fold a. split; [exact Wz|]. split; [exact Ha|]. split; [exact Ez|]. rewrite Ex, F1, F2. cbn [prodN]. rewrite H1, N.mul_1_r.
  unfold by_lines. cbn [tshape tdata length]. split; [|split; [lia|]].
  { unfold twf in *. cbn [tshape tdata prodN]. rewrite Wz, Ez, Ex. f_equal. rewrite Fold_Proofs.prodN_app. cbn [prodN]. rewrite H1. lia. }
  exists [prodN P], d, [], d. do 3 (split; [reflexivity|]). intros p q Hp Hq. inversion Hq; subst q. inversion Hp as [|i ? ? ? Hi Hn]; subst p. inversion Hn; subst.
  destruct (offset_surj P (N.to_nat i)) as (p0 & Vp & Op); [lia|]. destruct (offset_surj Q 0) as (q0 & Vq & Oq); [lia|].
  destruct (H p0 q0 Vp Vq) as (l & m & Hl & Hm & Hf). exists l, m.
  assert (G : forall C (t : tensor C), tshape t = P ++ d :: Q -> forall k, get (mkT [prodN P; d] (tdata t)) ([i] ++ k :: []) = get t (p0 ++ k :: q0)).
  { intros C t Et k. unfold get. cbn [tshape tdata app]. rewrite Et. f_equal. f_equal. rewrite offset_app by (apply (valid_len _ _ Vp)). cbn [offset prodN]. rewrite H1. replace (offset P p0) with i by lia. replace (offset Q q0) with 0 by lia. lia. }
  split; [|split; [|exact Hf]].
  - rewrite <- Hl. unfold line. apply mapo_same. intros k _. apply G. exact Ex.
  - rewrite <- Hm. unfold line. apply mapo_same. intros k _. apply G. exact Ez'.
Qed.
