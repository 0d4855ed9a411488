(** The normalisation modules, then the nodes. *)
From Verif Require Export Norm_Proofs.
From Verif Require Import Tensor_Proofs Index_Proofs Conv_Final MatMul_Model TensorRun_Model Linear_Model Linear_Proofs.
From Coq Require Import Lia ZifyBool ZifyNat ZifyN.
Import Conv_Spec Norm_Spec Tensor_Spec.
Local Open Scope N_scope.

Section Modules.
  Context {T : Type} (add sub mul div : T -> T -> T) (sqrt : T -> T) (zero : T) (over : T -> N -> T) (num : N -> T).

  Lemma tab_is (r : tensor T) s f g : shows r s f -> (forall idx, valid_idx s idx -> g idx = Some (f idx)) -> tab s g = Some r.
  Proof. intros Sr H. destruct (tab_shows s f g H) as (r' & E & Sr'). rewrite E. f_equal. eapply shows_same; eassumption. Qed.
  Lemma mean_map {A B} (h : A -> B) l (f : B -> T) : mean add zero over (map h l) f = mean add zero over l (fun i => f (h i)).
  Proof. unfold mean, sum. rewrite map_map, map_length. reflexivity. Qed.
  Lemma mean_ext {A} (l : list A) (f g : A -> T) : (forall i, In i l -> f i = g i) -> mean add zero over l f = mean add zero over l g.
  Proof. intros H. unfold mean. f_equal. apply sum_ext. exact H. Qed.
  Lemma variance_map {A B} (h : A -> B) l (f : B -> T) : variance add sub mul zero over (map h l) f = variance add sub mul zero over l (fun i => f (h i)).
  Proof. unfold variance. rewrite (mean_map h l f). apply mean_map. Qed.
  Lemma variance_ext {A} (l : list A) (f g : A -> T) : (forall i, In i l -> f i = g i) -> variance add sub mul zero over l f = variance add sub mul zero over l g.
  Proof. intros H. unfold variance. rewrite (mean_ext l f g H). apply mean_ext. intros i Hi. rewrite (H i Hi). reflexivity. Qed.
  Lemma valid1 d ds idx : valid_idx (d :: ds) idx -> exists i p, idx = i :: p /\ i < d /\ valid_idx ds p.
  Proof. intros V. inversion V as [|i ? p ? Hi Hp]; subst. exists i, p. auto. Qed.
  Lemma valid2 n c ds idx : valid_idx (n :: c :: ds) idx -> exists i j p, idx = i :: j :: p /\ i < n /\ j < c /\ valid_idx ds p.
  Proof. intros V. inversion V as [|i ? ir ? Hi Hr]; subst. inversion Hr as [|j ? p ? Hj Hp]; subst. exists i, j, p. auto. Qed.

  (** The last step of three of the layers. *)
  Lemma affine y n c ds f gamma beta : shows y (n :: c :: ds) f -> per_channel c gamma -> per_channel c beta ->
    exists g b y1 r, b_reshape (channel_shape (length (n :: c :: ds)) c) gamma = Some g /\ b_reshape (channel_shape (length (n :: c :: ds)) c) beta = Some b /\
      bzip mul y g = Some y1 /\ bzip add y1 b = Some r /\
      shows r (n :: c :: ds) (fun idx => add (mul (f idx) (elem zero gamma [nth 1 idx 0])) (elem zero beta [nth 1 idx 0])).
  Proof.
    intros Hy Hg Hb. destruct (shows_channel add sub mul div sqrt zero over gamma c (length (n :: c :: ds)) Hg) as (g & Eg & Sg). destruct (shows_channel add sub mul div sqrt zero over beta c (length (n :: c :: ds)) Hb) as (b & Eb & Sb).
    destruct (shows_zip mul y g _ _ _ _ Hy Sg (narrow_channel add sub mul div sqrt zero over _ _ _ _ eq_refl)) as (y1 & E1 & S1). destruct (shows_zip add y1 b _ _ _ _ S1 Sb (narrow_channel add sub mul div sqrt zero over _ _ _ _ eq_refl)) as (r & E2 & S2).
    exists g, b, y1, r. repeat (split; [assumption|]). eapply shows_ext; [exact S2|]. intros idx V. destruct (valid2 _ _ _ _ V) as (i & j & p & -> & _). cbv beta. rewrite (bproj_channel add sub mul div sqrt zero over _ n c ds i j p eq_refl V). reflexivity.
  Qed.
  (** BatchNorm, once the parameters have the shape [1, C, 1, ..]. *)
  Lemma batch_core x n c ds eps gamma beta mean_ var : twf x -> tshape x = n :: c :: ds -> per_channel c gamma -> per_channel c beta -> per_channel c mean_ -> per_channel c var ->
    let s := channel_shape (length (n :: c :: ds)) c in
    exists m v g b d y y1 r, b_reshape s mean_ = Some m /\ b_reshape s var = Some v /\ b_reshape s gamma = Some g /\ b_reshape s beta = Some b /\
      bzip sub x m = Some d /\ bzip div d (bmap (fun v => sqrt (add v (num eps))) v) = Some y /\ bzip mul y g = Some y1 /\ bzip add y1 b = Some r /\
      onnx_batch_norm add sub mul div sqrt zero (num eps) x gamma beta mean_ var = Some r.
  Proof.
    intros Wx Sx Hg Hb Hm Hv s. pose proof (shows_elem zero x Wx) as Hx. rewrite Sx in Hx.
    destruct (shows_channel add sub mul div sqrt zero over mean_ c (length (n :: c :: ds)) Hm) as (m & Em & Sm). destruct (shows_channel add sub mul div sqrt zero over var c (length (n :: c :: ds)) Hv) as (v & Ev & Sv).
    destruct (shows_zip sub x m _ _ _ _ Hx Sm (narrow_channel add sub mul div sqrt zero over _ _ _ _ eq_refl)) as (d & Ed & Sd). apply (shows_map (fun v => sqrt (add v (num eps)))) in Sv.
    destruct (shows_zip div d _ _ _ _ _ Sd Sv (narrow_channel add sub mul div sqrt zero over _ _ _ _ eq_refl)) as (y & Ey & Sy).
    destruct (affine y n c ds _ gamma beta Sy Hg Hb) as (g & b & y1 & r & Eg & Eb & E1 & E2 & Sr).
    exists m, v, g, b, d, y, y1, r. repeat (split; [assumption|]). unfold onnx_batch_norm. rewrite Sx.
    eapply tab_is; [exact Sr|].
    intros idx V. destruct (valid2 _ _ _ _ V) as (i & j & p & -> & _). cbv beta. cbn [nth]. rewrite (bproj_channel add sub mul div sqrt zero over _ n c ds i j p eq_refl V). reflexivity.
  Qed.
  Lemma bn_forward_ok x n c ds eps gamma beta mean_ var : twf x -> tshape x = n :: c :: ds -> per_channel c gamma -> per_channel c beta -> per_channel c mean_ -> per_channel c var ->
    exists r, bn_forward add sub mul div sqrt num (mkBn eps gamma beta mean_ var) x = Some r /\ onnx_batch_norm add sub mul div sqrt zero (num eps) x gamma beta mean_ var = Some r.
  Proof.
    intros Wx Sx Hg Hb Hm Hv. destruct (batch_core x n c ds eps gamma beta mean_ var Wx Sx Hg Hb Hm Hv) as (m & v & g & b & d & y & y1 & r & E1 & E2 & E3 & E4 & E5 & E6 & E7 & E8 & E9).
    exists r. split; [|exact E9]. unfold bn_forward. rewrite Sx. cbv zeta. cbn [bn_mean bn_var bn_gamma bn_beta bn_eps]. rewrite E1. cbn [obind]. rewrite E2. cbn [obind]. rewrite E3. cbn [obind]. rewrite E4. cbn [obind]. rewrite E5. cbn [obind]. rewrite E6. cbn [obind]. rewrite E7. cbn [obind]. exact E8.
  Qed.
  (** [unsqueeze_dims] gives the same as [reshape] here. *)
  Lemma sorted_dims a k : fold_right insert_z [] (map Z.of_nat (seq a k)) = map Z.of_nat (seq a k).
  Proof. revert a. induction k as [|k IH]; intros a; [reflexivity|]. cbn [seq map fold_right]. rewrite IH. destruct k; [reflexivity|]. cbn [seq map insert_z]. replace (Z.of_nat a <=? Z.of_nat (S a))%Z with true by lia. reflexivity. Qed.
  Lemma ones_after a k : put_ones (map Z.of_nat (seq a k)) (Z.of_nat a) [] = Some (repeat 1 k).
  Proof. revert a. induction k as [|k IH]; intros a; [reflexivity|]. cbn [seq map put_ones]. rewrite Z.sub_diag. change (Z.to_nat 0) with 0%nat. cbn [length Nat.leb firstn skipn app]. replace (Z.of_nat a + Z.of_nat 0 + 1)%Z with (Z.of_nat (S a)) by lia. rewrite IH. reflexivity. Qed.
  Lemma unsqueeze_channel (t : tensor T) c r : per_channel c t -> (2 <= r)%nat -> b_unsqueeze_at (N.of_nat r) (bn_dims (N.of_nat r)) t = b_reshape (channel_shape r c) t.
  Proof.
    intros (W & Hs) R. unfold b_unsqueeze_at, bn_dims. rewrite Nat2N.id, Hs.
    assert (F1 : filter (fun a => (a <? 0)%Z) (0%Z :: map Z.of_nat (seq 2 (r - 2))) = []). { cbn [filter Z.ltb Z.compare]. generalize (r - 2)%nat. intros k. generalize 2%nat. induction k as [|k IH]; intros a; [reflexivity|]. cbn [seq map filter]. replace (Z.of_nat a <? 0)%Z with false by lia. apply IH. }
    rewrite F1. cbn [length]. rewrite map_length, seq_length. replace (1 + S (r - 2) =? r)%nat with true by lia. cbn [Nat.leb andb].
    replace (forallb (fun a => (- Z.of_N (N.of_nat r) <=? a) && (a <? Z.of_N (N.of_nat r)))%Z (0%Z :: map Z.of_nat (seq 2 (r - 2)))) with true.
    2:{ symmetry. apply forallb_forall. intros a [<-|Ha]; [lia|]. apply in_map_iff in Ha. destruct Ha as (q & <- & Hq). apply in_seq in Hq. lia. }
    assert (M : map (fun a => if (a <? 0)%Z then (a + Z.of_N (N.of_nat r))%Z else a) (0%Z :: map Z.of_nat (seq 2 (r - 2))) = 0%Z :: map Z.of_nat (seq 2 (r - 2))).
    { cbn [map]. f_equal. rewrite map_map. apply map_ext. intros q. replace (Z.of_nat q <? 0)%Z with false by lia. reflexivity. }
    rewrite M. cbn [fold_right]. rewrite sorted_dims.
    assert (I : insert_z 0 (map Z.of_nat (seq 2 (r - 2))) = 0%Z :: map Z.of_nat (seq 2 (r - 2))) by (destruct (r - 2)%nat; [reflexivity|]; cbn [seq map insert_z]; reflexivity).
    rewrite I. unfold b_reshape, reshape_flat, channel_shape. unfold twf in W. rewrite W, Hs. cbn [prodN]. rewrite prod_ones.
    replace (N.of_nat (N.to_nat (c * 1)) =? 1 * (c * 1)) with true by lia. cbn [put_ones Z.sub Z.to_nat Nat.leb firstn app Z.add skipn length]. destruct (r - 2)%nat as [|k]; [reflexivity|].
    cbn [seq map put_ones]. change (Z.to_nat (Z.of_nat 2 - (0 + Z.of_nat 0 + 1))) with 1%nat. cbn [length Nat.leb firstn skipn app]. change (0 + Z.of_nat 0 + 1 + Z.of_nat 1 + 1)%Z with (Z.of_nat 3). rewrite ones_after. reflexivity.
  Qed.

  (** LayerNorm *)
  Lemma indices_one d : indices [d] = map (fun i => [i]) (upto d).
  Proof. cbn. induction (upto d) as [|i l IH]; [reflexivity|]. cbn. rewrite IH. reflexivity. Qed.
  Lemma ones_app_valid k s idx : valid_idx (repeat 1 k ++ s) idx -> exists p q, idx = p ++ q /\ valid_idx (repeat 1 k) p /\ valid_idx s q.
  Proof. intros V. apply Forall2_app_inv_r in V. destruct V as (p & q & V1 & V2 & ->). exists p, q. auto. Qed.
  Lemma prod_lead k s : prodN (repeat 1 k ++ s) = prodN s.
  Proof. induction k as [|k IH]; [reflexivity|]. cbn [repeat app prodN]. rewrite IH. lia. Qed.
  Lemma offset_lead k s p q : valid_idx (repeat 1 k) p -> offset (repeat 1 k ++ s) (p ++ q) = offset s q.
  Proof. revert p. induction k as [|k IH]; intros p V; inversion V as [|i ? ir ? Hi Hr]; subst; [reflexivity|]. cbn. rewrite (IH _ Hr). lia. Qed.
  Lemma last_app_one (p : list N) i : last (p ++ [i]) 0 = i.
  Proof. apply last_last. Qed.
  Lemma shows_lead (t : tensor T) d s : per_channel d t -> exists u, lead_ones (length (s ++ [d])) t = Some u /\ narrow (repeat 1 (length s) ++ [d]) (s ++ [d]) /\ shows u (repeat 1 (length s) ++ [d]) (fun idx => elem zero t [last idx 0]).
  Proof.
    intros (W & Hs). unfold lead_ones. rewrite Hs. cbn [length]. rewrite app_length. cbn [length]. replace (1 <=? length s + 1)%nat with true by lia. replace (length s + 1 - 1)%nat with (length s) by lia.
    eexists. split; [reflexivity|]. split; [unfold narrow; induction s; cbn; constructor; auto|].
    split; [unfold twf in *; cbn [tshape tdata]; rewrite W, Hs, prod_lead; reflexivity|]. split; [reflexivity|].
    intros idx V. destruct (ones_app_valid _ _ _ V) as (p & q & -> & Vp & Vq). inversion Vq as [|i ? ir ? Hi Hr]; subst. inversion Hr; subst. rewrite last_app_one.
    unfold get. cbn [tshape tdata]. rewrite offset_lead by exact Vp. assert (Vi : valid_idx (tshape t) [i]) by (rewrite Hs; constructor; [exact Hi|constructor]).
    destruct (get_valid t [i] W Vi) as (a & E & _). unfold elem. rewrite E. unfold get in E. rewrite Hs in E. exact E.
  Qed.
  Lemma bproj_lead s d p i : valid_idx s p -> i < d -> last (bproj (repeat 1 (length s) ++ [d]) (p ++ [i])) 0 = i.
  Proof.
    intros V Hi. unfold bproj. rewrite !app_length, repeat_length, (Forall2_length V), Nat.sub_diag. cbn [skipn].
    assert (E : exists q, map (fun di : N * N => if fst di =? 1 then 0 else snd di) (combine (repeat 1 (length s) ++ [d]) (p ++ [i])) = q ++ [if d =? 1 then 0 else i]).
    { clear Hi. induction V as [|a b p s Hab V IH]; [exists []; reflexivity|]. destruct IH as [q E]. exists (0 :: q). cbn. rewrite E. reflexivity. }
    destruct E as [q ->]. rewrite last_app_one. destruct (N.eqb_spec d 1); [lia|reflexivity].
  Qed.
  Lemma ln_forward_ok x s d eps gamma beta : twf x -> tshape x = s ++ [d] -> per_channel d gamma -> (forall b, beta = Some b -> per_channel d b) ->
    exists r, ln_forward add sub mul div sqrt zero over num (mkLn eps gamma beta) x = Some r /\ onnx_layer_norm add sub mul div sqrt zero over (length s) (num eps) x gamma beta = Some r.
  Proof.
    intros Wx Sx Hg Hb. pose proof (shows_elem zero x Wx) as Hx. rewrite Sx in Hx. unfold ln_forward. cbn [ln_eps ln_gamma ln_beta].
    destruct (shows_centred add sub mul div sqrt zero over (num eps) x s d _ Hx) as (y & Ey & Sy). rewrite Ey. cbn [obind]. rewrite Sx.
    destruct (shows_lead gamma d s Hg) as (g & Eg & Ng & Sg). rewrite Eg. cbn [obind].
    destruct (shows_zip mul y g _ _ _ _ Sy Sg Ng) as (y1 & E1 & S1). rewrite E1. cbn [obind].
    assert (Spec : forall r, shows r (s ++ [d]) (fun idx => let row := fun i => elem zero x (removelast idx ++ [i]) in
        let v := mul (normal add sub div sqrt (num eps) (elem zero x idx) (mean add zero over (upto d) row) (variance add sub mul zero over (upto d) row)) (elem zero gamma [last idx 0]) in
        match beta with Some b => add v (elem zero b [last idx 0]) | None => v end) -> onnx_layer_norm add sub mul div sqrt zero over (length s) (num eps) x gamma beta = Some r).
    { intros r Sr. unfold onnx_layer_norm. rewrite Sx.
      eapply tab_is; [exact Sr|].
      intros idx V. destruct (valid_snoc _ _ _ V) as (p & i & -> & Vp & Hi). cbv beta zeta. rewrite removelast_last, last_app_one.
      assert (L : length p = length s) by exact (Forall2_length Vp).
      assert (K1 : skipn (length s) (s ++ [d]) = [d]) by (rewrite skipn_app, skipn_all, Nat.sub_diag; reflexivity).
      assert (K2 : firstn (length s) (p ++ [i]) = p) by (rewrite <- L, firstn_app, firstn_all, Nat.sub_diag; apply app_nil_r).
      assert (K3 : skipn (length s) (p ++ [i]) = [i]) by (rewrite <- L, skipn_app, skipn_all, Nat.sub_diag; reflexivity).
      rewrite ?K1, ?K2, ?K3.
      rewrite indices_one, mean_map, variance_map.
      assert (Pr : forall t : tensor T, per_channel d t -> bproj (tshape t) [i] = [i]) by (intros t (_ & ->); apply bproj_self; constructor; [exact Hi|constructor]).
      rewrite (Pr gamma Hg). destruct beta as [b|]; [rewrite (Pr b (Hb b eq_refl))|]; reflexivity. }
    destruct beta as [b|].
    - destruct (shows_lead b d s (Hb b eq_refl)) as (b' & Eb & Nb & Sb). rewrite Eb. cbn [obind]. destruct (shows_zip add y1 b' _ _ _ _ S1 Sb Nb) as (r & E2 & S2). exists r. split; [exact E2|].
      apply Spec. eapply shows_ext; [exact S2|]. intros idx V. destruct (valid_snoc _ _ _ V) as (p & i & -> & Vp & Hi). cbv beta zeta. rewrite (bproj_lead s d p i Vp Hi), last_app_one. reflexivity.
    - exists y1. split; [reflexivity|]. apply Spec. eapply shows_ext; [exact S1|]. intros idx V. destruct (valid_snoc _ _ _ V) as (p & i & -> & Vp & Hi). cbv beta zeta. rewrite (bproj_lead s d p i Vp Hi), last_app_one. reflexivity.
  Qed.

  (** GroupNorm *)
  Lemma elem_flat (t u : tensor T) a b : tdata t = tdata u -> offset (tshape t) a = offset (tshape u) b -> elem zero t a = elem zero u b.
  Proof. intros D O. unfold elem, get. rewrite D, O. reflexivity. Qed.
  Lemma gn_forward_ok x n c ds groups eps gamma beta : twf x -> tshape x = n :: c :: ds -> 0 < groups -> c mod groups = 0 -> per_channel c gamma -> per_channel c beta ->
    exists r, gn_forward add sub mul div sqrt zero over num (mkGn groups c eps gamma beta) x = Some r /\ onnx_group_norm add sub mul div sqrt zero over groups (num eps) x gamma beta = Some r.
  Proof.
    intros Wx Sx Hgr Hmod Hg Hb. unfold gn_forward. rewrite Sx. cbn [gn_groups gn_channels gn_eps gn_gamma gn_beta]. rewrite N.eqb_refl. replace (groups =? 0) with false by lia. cbn [negb orb]. cbv zeta.
    set (cg := c / groups). set (P := prodN ds). assert (Ec : c = cg * groups) by (unfold cg; pose proof (N.div_mod c groups ltac:(lia)); lia).
    assert (Hh : P * c / groups = cg * P) by (rewrite Ec; replace (P * (cg * groups)) with (cg * P * groups) by lia; apply N.div_mul; lia). rewrite Hh.
    assert (Hp3 : prodN [n; groups; cg * P] = prodN (n :: c :: ds)) by (cbn [prodN]; fold P; rewrite Ec; lia).
    set (x3 := mkT [n; groups; cg * P] (tdata x)). assert (E3 : b_reshape [n; groups; cg * P] x = Some x3).
    { unfold b_reshape, reshape_flat. unfold twf in Wx. rewrite Wx, Sx, Hp3. replace (N.of_nat (N.to_nat (prodN (n :: c :: ds))) =? prodN (n :: c :: ds)) with true by lia. reflexivity. }
    rewrite E3. cbn [obind]. assert (W3 : twf x3) by (unfold twf in *; cbn [x3 tdata tshape]; rewrite Wx, Sx, Hp3; reflexivity).
    pose proof (shows_elem zero x3 W3) as H3. change (tshape x3) with ([n; groups] ++ [cg * P]) in H3.
    destruct (shows_centred add sub mul div sqrt zero over (num eps) x3 [n; groups] (cg * P) _ H3) as (y3 & Ey3 & Sy3). rewrite Ey3. cbn [obind]. cbn [app] in Sy3.
    assert (At : forall i g ch q, ch < cg -> valid_idx ds q -> elem zero x3 [i; g; ch * P + offset ds q] = elem zero x (i :: g * cg + ch :: q)).
    { intros i g ch q Hch Vq. apply elem_flat; [reflexivity|]. rewrite Sx. cbn [x3 tshape offset prodN]. fold P. rewrite Ec. nia. }
    assert (Pos : forall idx, valid_idx (n :: c :: ds) idx -> exists i j p, idx = i :: j :: p /\ i < n /\ 0 < cg /\ j / cg < groups /\ j mod cg < cg /\ j = j / cg * cg + j mod cg /\ valid_idx ds p /\ j mod cg * P + offset ds p < cg * P).
    { intros idx V. destruct (valid2 _ _ _ _ V) as (i & j & p & -> & Hi & Hj & Vp). assert (0 < cg) by (destruct (N.eq_dec cg 0) as [E|]; [rewrite E in Ec; lia|lia]).
      exists i, j, p. pose proof (N.mod_lt j cg ltac:(lia)). pose proof (N.div_mod j cg ltac:(lia)). assert (j / cg < groups) by (apply N.div_lt_upper_bound; lia). pose proof (offset_lt ds p Vp). fold P in H2.
      repeat split; try assumption; try lia. nia. }
    destruct (shows_reshape y3 [n; groups; cg * P] _ (n :: c :: ds) (fun idx => match idx with
      | i :: j :: p => let l := indices (cg :: ds) in
          let f q := match q with ch :: p => elem zero x (i :: j / cg * cg + ch :: p) | [] => zero end in
          normal add sub div sqrt (num eps) (elem zero x idx) (mean add zero over l f) (variance add sub mul zero over l f)
      | _ => zero end) Sy3 (eq_sym Hp3)) as (y & Ey & Sy).
    { intros idx V. destruct (Pos idx V) as (i & j & p & -> & Hi & Hcg & Hjg & Hjm & Ej & Vp & Ho). exists [i; j / cg; j mod cg * P + offset ds p].
      split; [constructor; [exact Hi|constructor; [exact Hjg|constructor; [exact Ho|constructor]]]|]. split; [cbn [offset prodN]; fold P; rewrite Ec; nia|].
      cbv beta zeta. cbn [removelast app]. rewrite (At i (j / cg) (j mod cg) p Hjm Vp), <- Ej.
      assert (U : upto (cg * P) = map (offset (cg :: ds)) (indices (cg :: ds))) by (rewrite offsets_upto; reflexivity). rewrite U, mean_map, variance_map.
      assert (Same : forall q, In q (indices (cg :: ds)) -> match q with ch :: p0 => elem zero x (i :: j / cg * cg + ch :: p0) | [] => zero end = elem zero x3 [i; j / cg; offset (cg :: ds) q]).
      { intros q Hq. apply indices_In in Hq. destruct (valid1 _ _ _ Hq) as (ch & qr & -> & Hch & Vq). cbn [offset]. fold P. symmetry. apply At; assumption. }
      rewrite (mean_ext _ _ _ Same), (variance_ext _ _ _ Same). reflexivity. }
    rewrite Ey. cbn [obind]. destruct (affine y n c ds _ gamma beta Sy Hg Hb) as (g & b & y1 & r & Eg & Eb & E1 & E2 & Sr).
    rewrite Eg. cbn [obind]. rewrite Eb. cbn [obind]. rewrite E1. cbn [obind]. exists r. split; [exact E2|].
    unfold onnx_group_norm. rewrite Sx. fold cg.
    eapply tab_is; [exact Sr|].
    intros idx V. destruct (valid2 _ _ _ _ V) as (i & j & p & -> & _). reflexivity.
  Qed.
  Lemma instance_group x n c ds eps gamma beta : tshape x = n :: c :: ds -> 0 < c -> onnx_group_norm add sub mul div sqrt zero over c eps x gamma beta = onnx_instance_norm add sub mul div sqrt zero over eps x gamma beta.
  Proof.
    intros Sx Hc. unfold onnx_group_norm, onnx_instance_norm. rewrite Sx. apply tab_ext. intros idx V. destruct (valid2 _ _ _ _ V) as (i & j & p & -> & _). rewrite N.div_same by lia. rewrite N.div_1_r, N.mul_1_r.
    assert (I : indices (1 :: ds) = map (cons 0) (indices ds)) by (change (indices (1 :: ds)) with (map (cons 0) (indices ds) ++ []); apply app_nil_r). cbv zeta. rewrite I, mean_map, variance_map. rewrite N.add_0_r. reflexivity.
  Qed.
End Modules.
