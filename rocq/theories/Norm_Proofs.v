(** Tensors as functions of an index, and the steps of the normalisation layers on them. *)
From Verif Require Export Norm_Model.
From Verif Require Import Tensor_Proofs Index_Proofs MatMul_Model TensorRun_Model Linear_Model Linear_Proofs.
From Coq Require Import Lia ZifyBool ZifyNat ZifyN.
Import Conv_Spec Norm_Spec Tensor_Spec.
Local Open Scope N_scope.

Section Shows.
  Context {T : Type} (zero : T).
  Definition shows (t : tensor T) (s : list N) (f : list N -> T) : Prop :=
    twf t /\ tshape t = s /\ forall idx, valid_idx s idx -> get t idx = Some (f idx).
  Lemma shows_elem t : twf t -> shows t (tshape t) (elem zero t).
  Proof. intros H. split; [exact H|]. split; [reflexivity|]. intros idx V. destruct (get_valid t idx H V) as (a & E & _). unfold elem. rewrite E. reflexivity. Qed.
  Lemma elem_shows t s f idx : shows t s f -> valid_idx s idx -> elem zero t idx = f idx.
  Proof. intros (_ & _ & H) V. unfold elem. rewrite (H idx V). reflexivity. Qed.
  Lemma shows_ext t s f g : shows t s f -> (forall idx, valid_idx s idx -> f idx = g idx) -> shows t s g.
  Proof. intros (H1 & H2 & H3) E. split; [exact H1|]. split; [exact H2|]. intros idx V. rewrite (H3 idx V), (E idx V). reflexivity. Qed.
  Lemma shows_same t u s f : shows t s f -> shows u s f -> t = u.
  Proof. intros (A1 & A2 & A3) (B1 & B2 & B3). apply tensor_ext; try assumption; [congruence|]. intros idx V. rewrite A2 in V. rewrite A3, B3 by exact V. reflexivity. Qed.
  Lemma tab_shows s (f : list N -> T) (g : list N -> option T) : (forall idx, valid_idx s idx -> g idx = Some (f idx)) -> exists t, tab s g = Some t /\ shows t s f.
  Proof.
    intros H. destruct (tab_Some s g) as [t E]. { intros idx V. rewrite (H idx V). eexists. reflexivity. }
    exists t. split; [exact E|]. destruct (tab_wf _ _ _ E) as [W S]. split; [exact W|]. split; [exact S|]. intros idx V. rewrite (get_tab _ _ _ idx E V). apply H. exact V.
  Qed.
  Lemma shows_map h t s f : shows t s f -> shows (bmap h t) s (fun idx => h (f idx)).
  Proof.
    intros (H1 & H2 & H3). unfold bmap. split; [unfold twf in *; cbn; rewrite map_length; exact H1|]. split; [exact H2|]. intros idx V. specialize (H3 idx V). unfold get in *. cbn. rewrite nth_error_map, H3. reflexivity.
  Qed.
  (** Broadcasting one operand. *)
  Definition narrow (t s : list N) : Prop := Forall2 (fun b a => b = a \/ b = 1) t s.
  Lemma brev_narrow t : forall s, narrow t s -> brev s t = Some s.
  Proof.
    induction t as [|b t IH]; intros s H; inversion H as [|? a ? s' Hb Hr]; subst; [reflexivity|]. cbn. rewrite (IH s' Hr). unfold bdim.
    destruct (N.eqb_spec a b) as [->|Hab]; [reflexivity|]. destruct Hb as [->| ->]; [contradiction|]. destruct (N.eqb_spec a 1); [congruence|]. reflexivity.
  Qed.
  Lemma bshape_narrow t s : narrow t s -> bshape s t = Some s.
  Proof. intros H. unfold bshape. rewrite brev_narrow by (apply Forall2_rev; exact H). cbn. rewrite rev_involutive. reflexivity. Qed.
  Lemma narrow_valid t : forall s idx, narrow t s -> valid_idx s idx -> valid_idx t (bproj t idx).
  Proof.
    intros s idx H V. assert (L : length idx = length t) by (rewrite (Forall2_length V), (Forall2_length H); reflexivity).
    unfold bproj. rewrite L, Nat.sub_diag. cbn [skipn]. clear L. revert idx V. induction H as [|b a t s Hb H IH]; intros idx V; inversion V as [|i ? ir ? Hi Hr]; subst; cbn; constructor; [|apply IH; exact Hr].
    destruct (N.eqb_spec b 1) as [->|]; [lia|]. destruct Hb as [->|]; [exact Hi|contradiction].
  Qed.
  Lemma shows_zip op x y s t f g : shows x s f -> shows y t g -> narrow t s ->
    exists r, bzip op x y = Some r /\ shows r s (fun idx => op (f idx) (g (bproj t idx))).
  Proof.
    intros (X1 & X2 & X3) (Y1 & Y2 & Y3) H. unfold bzip. rewrite X2, Y2, (Forall2_length H), Nat.eqb_refl. unfold elementwise. rewrite X2, Y2, (bshape_narrow t s H).
    apply tab_shows. intros idx V. rewrite (bproj_self s idx V), (X3 idx V), (Y3 _ (narrow_valid _ _ _ H V)). reflexivity.
  Qed.
  Lemma shows_zip_same op x y s f g : shows x s f -> shows y s g -> exists r, bzip op x y = Some r /\ shows r s (fun idx => op (f idx) (g idx)).
  Proof.
    intros HX HY. destruct (shows_zip op x y s s f g HX HY) as (r & E & H). { clear. induction s; constructor; auto. }
    exists r. split; [exact E|]. eapply shows_ext; [exact H|]. intros idx V. cbn. rewrite bproj_self by exact V. reflexivity.
  Qed.
  Lemma shows_reshape x s f s' g : shows x s f -> prodN s' = prodN s ->
    (forall idx, valid_idx s' idx -> exists idx0, valid_idx s idx0 /\ offset s idx0 = offset s' idx /\ g idx = f idx0) -> exists r, b_reshape s' x = Some r /\ shows r s' g.
  Proof.
    intros (X1 & X2 & X3) Hp Hg. unfold b_reshape, reshape_flat. unfold twf in X1. rewrite X1, X2. replace (N.of_nat (N.to_nat (prodN s)) =? prodN s') with true by lia.
    eexists. split; [reflexivity|]. split; [unfold twf; cbn; rewrite X1, X2, Hp; reflexivity|]. split; [reflexivity|]. intros idx V. destruct (Hg idx V) as (i0 & V0 & E & ->). specialize (X3 i0 V0). unfold get in *. cbn. rewrite <- E. rewrite X2 in X3. exact X3.
  Qed.
End Shows.

Section Steps.
  Context {T : Type} (add sub mul div : T -> T -> T) (sqrt : T -> T) (zero : T) (over : T -> N -> T).

  Lemma narrow_last s h : narrow (s ++ [1]) (s ++ [h]).
  Proof. unfold narrow. induction s as [|a s IH]; cbn; constructor; auto. Qed.
  Lemma valid_snoc s h idx : valid_idx (s ++ [h]) idx -> exists p i, idx = p ++ [i] /\ valid_idx s p /\ i < h.
  Proof. intros V. apply Forall2_app_inv_r in V. destruct V as (p & q & V1 & V2 & ->). inversion V2 as [|i ? ? ? Hi Hr]; subst. inversion Hr; subst. exists p, i. auto. Qed.
  Lemma snoc_valid s h p i : valid_idx s p -> i < h -> valid_idx (s ++ [h]) (p ++ [i]).
  Proof. intros V H. apply Forall2_app; [exact V|]. constructor; [exact H|constructor]. Qed.
  Lemma bproj_last s p i : valid_idx s p -> bproj (s ++ [1]) (p ++ [i]) = p ++ [0].
  Proof.
    intros V. unfold bproj. rewrite !app_length, (Forall2_length V), Nat.sub_diag. cbn [skipn]. induction V as [|a b p s Hab V IH]; [reflexivity|].
    cbn. rewrite IH. destruct (N.eqb_spec b 1) as [->|]; [replace a with 0 by lia; reflexivity|reflexivity].
  Qed.
  Lemma last_snoc s (h : N) : last (s ++ [h]) 1 = h.
  Proof. induction s as [|a s IH]; [reflexivity|]. cbn. destruct (s ++ [h]) eqn:E; [destruct s; discriminate|exact IH]. Qed.
  Lemma sum_ext {A} (l : list A) (f g : A -> T) : (forall i, In i l -> f i = g i) -> sum add zero l f = sum add zero l g.
  Proof. intros H. unfold sum. f_equal. apply map_ext_in. exact H. Qed.
  Lemma shows_sum x s h f : shows x (s ++ [h]) f -> exists r, sum_last add zero x = Some r /\ shows r (s ++ [1]) (fun idx => sum add zero (upto h) (fun i => f (removelast idx ++ [i]))).
  Proof.
    intros H. unfold sum_last. rewrite (proj1 (proj2 H)), rev_app_distr. cbn [rev app]. rewrite rev_involutive. apply tab_shows. intros idx V. f_equal. apply sum_ext. intros i Hi.
    apply upto_In in Hi. destruct (valid_snoc _ _ _ V) as (p & j & -> & Vp & _). rewrite removelast_last. apply (elem_shows zero x _ f _ H). apply snoc_valid; assumption.
  Qed.
  (** What [centred] computes. *)
  Lemma shows_centred eps x s h f : shows x (s ++ [h]) f ->
    exists r, centred add sub mul div sqrt zero over eps x = Some r /\
      shows r (s ++ [h]) (fun idx => let row := fun i => f (removelast idx ++ [i]) in
        normal add sub div sqrt eps (f idx) (mean add zero over (upto h) row) (variance add sub mul zero over (upto h) row)).
  Proof.
    intros H. unfold centred. destruct (shows_sum x s h f H) as (r1 & E1 & H1). rewrite E1. cbn [obind].
    assert (Lh : last_size x = h) by (unfold last_size; rewrite (proj1 (proj2 H)); apply last_snoc).
    rewrite Lh. apply (shows_map (fun v => over v h)) in H1.
    destruct (shows_zip sub x _ _ _ _ _ H H1 (narrow_last s h)) as (d & E2 & H2). rewrite E2. cbn [obind].
    destruct (shows_zip_same mul d d _ _ _ H2 H2) as (q & E3 & H3). rewrite E3. cbn [obind].
    destruct (shows_sum q s h _ H3) as (r4 & E4 & H4). rewrite E4. cbn [obind]. apply (shows_map (fun v => sqrt (add (over v h) eps))) in H4.
    destruct (shows_zip div d _ _ _ _ _ H2 H4 (narrow_last s h)) as (r & E5 & H5). exists r. split; [exact E5|]. eapply shows_ext; [exact H5|]. intros idx V.
    destruct (valid_snoc _ _ _ V) as (p & i & -> & Vp & Hi). cbv beta zeta. rewrite (bproj_last s p i Vp), !removelast_last.
    assert (Lu : N.of_nat (length (upto h)) = h) by (rewrite upto_length; lia).
    unfold normal, variance, mean. rewrite Lu. f_equal. f_equal. f_equal. f_equal. apply sum_ext. intros k Hk. apply upto_In in Hk.
    rewrite (bproj_last s p k Vp), !removelast_last. reflexivity.
  Qed.
  (** A vector as a tensor with one dimension that is not 1. *)
  Lemma prod_ones k : prodN (repeat 1 k) = 1.
  Proof. induction k as [|k IH]; [reflexivity|]. cbn. rewrite IH. reflexivity. Qed.
  Lemma offset_ones k idx : valid_idx (repeat 1 k) idx -> offset (repeat 1 k) idx = 0.
  Proof. revert idx. induction k as [|k IH]; intros idx V; inversion V as [|i ? ir ? Hi Hr]; subst; [reflexivity|]. cbn. rewrite (IH _ Hr). lia. Qed.
  Lemma channel_valid r c idx : valid_idx (channel_shape r c) idx -> exists j p, idx = 0 :: j :: p /\ j < c /\ valid_idx (repeat 1 (r - 2)) p.
  Proof. intros V. inversion V as [|i ? ir ? Hi Hr]; subst. inversion Hr as [|j ? p ? Hj Hp]; subst. exists j, p. split; [f_equal; lia|auto]. Qed.
  Lemma shows_channel t c r : per_channel c t -> exists u, b_reshape (channel_shape r c) t = Some u /\ shows u (channel_shape r c) (fun idx => elem zero t [nth 1 idx 0]).
  Proof.
    intros (W & S). apply (shows_reshape t (tshape t) (elem zero t)); [apply shows_elem; exact W| |].
    - unfold channel_shape. rewrite S. cbn [prodN]. rewrite prod_ones. lia.
    - intros idx V. destruct (channel_valid _ _ _ V) as (j & p & -> & Hj & Vp). exists [j]. rewrite S. split; [constructor; [exact Hj|constructor]|]. split; [|reflexivity].
      unfold channel_shape. cbn [offset prodN]. rewrite (offset_ones _ _ Vp), prod_ones. lia.
  Qed.
  Lemma narrow_channel r n c ds : length (n :: c :: ds) = r -> narrow (channel_shape r c) (n :: c :: ds).
  Proof. intros <-. unfold channel_shape, narrow. cbn [length]. replace (S (S (length ds)) - 2)%nat with (length ds) by lia. constructor; [auto|]. constructor; [auto|]. induction ds; cbn; constructor; auto. Qed.
  Lemma bproj_channel r n c ds i j p : length (n :: c :: ds) = r -> valid_idx (n :: c :: ds) (i :: j :: p) -> nth 1 (bproj (channel_shape r c) (i :: j :: p)) 0 = j.
  Proof.
    intros L V. pose proof (Forall2_length V) as LV. cbn in LV, L. unfold bproj, channel_shape. cbn [length]. rewrite repeat_length. replace (S (S (length p)) - S (S (r - 2)))%nat with 0%nat by lia. cbn [skipn combine map nth fst snd].
    inversion V as [|? ? ? ? _ Hr]; subst. inversion Hr as [|? ? ? ? Hj _]; subst. destruct (N.eqb_spec c 1) as [->|]; [lia|reflexivity].
  Qed.
End Steps.
