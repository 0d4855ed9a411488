(** Proofs about the code emitted for matrix products. *)
From Verif Require Import Attention_Proofs BinOps_Proofs TensorRun_Proofs Tensor_Proofs Linear_Spec.
From Verif Require Import ShapeOps_Spec ShapeOps_Proofs.
From Verif Require Export MatMul_Model.
From Coq Require Import Lia ZifyBool ZifyNat ZifyN.
Import MatMul_Spec Tensor_Spec.
Local Open Scope N_scope.

(** ** Dropping one dimension *)
Lemma deleted_one (P : nat -> Prop) (p q : list N) d i : (forall j, P j <-> j = (i + length p)%nat) ->
  deleted P i (p ++ d :: q) (p ++ q).
Proof.
  revert i. induction p as [|a p IH]; intros i H; cbn [app length] in *.
  - apply del_drop; [apply H; lia|]. assert (G : forall k, (i < k)%nat -> deleted P k q q).
    { clear -H. induction q as [|a q IH]; intros k Hk; constructor; [rewrite H; lia|]. apply IH. lia. }
    apply G. lia.
  - apply del_keep; [rewrite H; lia|]. apply IH. intros j. rewrite H. lia.
Qed.
Lemma squeeze_at {A} p q (x : tensor A) k : tshape x = p ++ 1 :: q -> twf x -> k = N.of_nat (length (p ++ q)) ->
  b_squeeze_dims k [Z.of_nat (length p)] x = Some (mkT (p ++ q) (tdata x)).
Proof.
  intros E W ->. apply b_squeeze_ok; [exact W|discriminate|].
  assert (L : length (tshape x) = (length p + S (length q))%nat) by (rewrite E, app_length; reflexivity).
  assert (Q : forall j, named (length (tshape x)) [Z.of_nat (length p)] j <-> j = length p).
  { intros j. unfold named. split.
    - intros (a & [<-|[]] & <-). unfold position. rewrite Z.mod_small by lia. lia.
    - intros ->. exists (Z.of_nat (length p)). split; [left; reflexivity|]. unfold position. rewrite Z.mod_small by lia. lia. }
  split; [|split].
  - split; [|repeat constructor; cbn; tauto]. intros a [<-|[]]. lia.
  - intros i d Hi Hd. apply Q in Hi. subst i. rewrite E, nth_error_app2, Nat.sub_diag in Hd by lia. cbn in Hd. congruence.
  - rewrite E at 2. apply deleted_one. exact Q.
Qed.

Lemma put_ones_end j at_ n : (put_ones (repeat 0%Z j ++ [at_ + Z.of_nat j + 1]%Z) at_ [n] = Some (repeat 1 j ++ [n; 1])) \/ (at_ < 0)%Z.
Proof.
  revert at_. induction j as [|j IH]; intros at_; destruct (Z.ltb_spec at_ 0); auto; left; cbn [repeat app put_ones].
  - replace (Z.to_nat (at_ + Z.of_nat 0 + 1 - at_)) with 1%nat by lia. reflexivity.
  - replace (Z.to_nat (0 - at_)) with 0%nat by lia. cbn [Nat.leb length firstn skipn app]. rewrite Z.add_0_r.
    destruct (IH (at_ + 1)%Z) as [IH'|]; [|lia]. replace (at_ + Z.of_nat (S j) + 1)%Z with (at_ + 1 + Z.of_nat j + 1)%Z by lia. rewrite IH'. reflexivity.
Qed.
Lemma insert_zeros a j : (0 < a)%Z -> insert_z a (repeat 0%Z j) = repeat 0%Z j ++ [a].
Proof. intros H. induction j as [|j IH]; [reflexivity|]. cbn. destruct (Z.leb_spec a 0); [lia|]. rewrite IH. reflexivity. Qed.
Lemma sort_zeros j : fold_right insert_z [] (repeat 0%Z j) = repeat 0%Z j.
Proof. induction j as [|j IH]; [reflexivity|]. cbn [repeat fold_right]. rewrite IH. destruct j; reflexivity. Qed.
Lemma column_axes {A} rank n (x : tensor A) : tshape x = [n] -> 2 <= rank ->
  b_unsqueeze_at rank ((-1)%Z :: repeat 0%Z (N.to_nat (rank - 1 - 1))) x = Some (mkT (repeat 1 (N.to_nat (rank - 2)) ++ [n; 1]) (tdata x)).
Proof.
  intros E H. unfold b_unsqueeze_at. rewrite E. replace (rank - 1 - 1) with (rank - 2) by lia. set (j := N.to_nat (rank - 2)).
  assert (F : filter (fun a => a <? 0)%Z (repeat 0%Z j) = []) by (induction j; [reflexivity|assumption]).
  cbn [filter]. rewrite F. cbn [length Nat.leb Z.ltb Z.compare andb]. rewrite repeat_length.
  replace ((1 + S j =? N.to_nat rank)%nat) with true by lia. cbn [forallb].
  replace (forallb _ (repeat 0%Z j)) with true.
  2:{ symmetry. apply forallb_forall. intros a Ha. apply repeat_spec in Ha. subst a. lia. }
  replace ((- Z.of_N rank <=? -1)%Z) with true by lia. replace ((-1 <? Z.of_N rank)%Z) with true by lia. cbn [andb map fold_right Z.ltb Z.compare].
  replace (map _ (repeat 0%Z j)) with (repeat 0%Z j) by (clear; induction j; cbn; [reflexivity|congruence]).
  rewrite sort_zeros, insert_zeros by lia. replace (-1 + Z.of_N rank)%Z with (0 + Z.of_nat j + 1)%Z by lia.
  destruct (put_ones_end j 0 n) as [->|]; [reflexivity|lia].
Qed.

(** ** Leading ones do not change a product *)
Section Product.
  Context {T : Type} (dot : list T -> list T -> option T).

  Lemma rev_two (s : list N) : (2 <= length s)%nat -> exists b m n, s = b ++ [m; n] /\ rev s = n :: m :: rev b.
  Proof.
    intros H. destruct (rev s) as [|n [|m b]] eqn:E; try (apply (f_equal (@length N)) in E; rewrite rev_length in E; cbn in E; lia).
    exists (rev b), m, n. rewrite rev_involutive. split; [|reflexivity].
    rewrite <- (rev_involutive s), E. cbn. rewrite <- app_assoc. reflexivity.
  Qed.
  Lemma bproj_length s idx : (length s <= length idx)%nat -> length (bproj s idx) = length s.
  Proof. intros H. unfold bproj. rewrite map_length, combine_length, skipn_length. lia. Qed.
  Lemma bshape_len a b s : bshape a b = Some s -> length s = Nat.max (length a) (length b).
  Proof.
    unfold bshape. destruct (brev (rev a) (rev b)) as [r|] eqn:Er; [|discriminate]. cbn. intros E. injection E as <-.
    rewrite rev_length, (brev_length _ _ _ Er), !rev_length. reflexivity.
  Qed.
  Lemma product_lead_r (x y : tensor T) k : (2 <= length (tshape y))%nat -> (k + length (tshape y) <= length (tshape x))%nat ->
    matrix_product dot x (unsqueeze k y) = matrix_product dot x y.
  Proof.
    intros Hy Hx. destruct (rev_two (tshape x) ltac:(lia)) as (bx & m & l & Ex & Rx). destruct (rev_two (tshape y) Hy) as (by_ & l' & n & Ey & Ry).
    unfold matrix_product. cbn [tshape unsqueeze]. rewrite rev_app_distr, Rx, Ry. cbn [app].
    rewrite rev_app_distr, !rev_involutive.
    assert (L : (k + length by_ <= length bx)%nat) by (rewrite Ex, Ey, !app_length in Hx; cbn in Hx; lia).
    rewrite bshape_comm, bshape_unsqueeze by exact L. rewrite (bshape_comm by_ bx).
    destruct (bshape bx by_) as [b|] eqn:Eb; [|reflexivity]. destruct (l =? l'); [|reflexivity].
    pose proof (bshape_len _ _ _ Eb) as Lb.
    apply tab_ext. intros idx Hv. assert (Li : length idx = length (b ++ [m; n])) by (apply (Forall2_length Hv)). rewrite app_length in Li. cbn in Li.
    destruct (mapo (fun l0 => get x _) (upto l)) as [row|]; [|reflexivity].
    replace (mapo (fun l0 => get (unsqueeze k y) _) (upto l)) with (mapo (fun l0 => get y (bproj by_ (firstn (length b) idx) ++ [l0; nth (S (length b)) idx 0])) (upto l)); [reflexivity|].
    apply mapo_ext. intros j _. rewrite bproj_unsqueeze by (rewrite firstn_length; lia). rewrite <- app_assoc, get_unsqueeze. reflexivity.
  Qed.
  Lemma product_lead_l (x y : tensor T) k : (2 <= length (tshape x))%nat -> (k + length (tshape x) <= length (tshape y))%nat ->
    matrix_product dot (unsqueeze k x) y = matrix_product dot x y.
  Proof.
    intros Hx Hy. destruct (rev_two (tshape x) Hx) as (bx & m & l & Ex & Rx). destruct (rev_two (tshape y) ltac:(lia)) as (by_ & l' & n & Ey & Ry).
    unfold matrix_product. cbn [tshape unsqueeze]. rewrite rev_app_distr, Rx, Ry. cbn [app].
    rewrite rev_app_distr, !rev_involutive.
    assert (L : (k + length bx <= length by_)%nat) by (rewrite Ex, Ey, !app_length in Hy; cbn in Hy; lia).
    rewrite bshape_unsqueeze by exact L.
    destruct (bshape bx by_) as [b|] eqn:Eb; [|reflexivity]. destruct (l =? l'); [|reflexivity].
    pose proof (bshape_len _ _ _ Eb) as Lb.
    apply tab_ext. intros idx Hv. assert (Li : length idx = length (b ++ [m; n])) by (apply (Forall2_length Hv)). rewrite app_length in Li. cbn in Li.
    replace (mapo (fun l0 => get (unsqueeze k x) _) (upto l)) with (mapo (fun l0 => get x (bproj bx (firstn (length b) idx) ++ [nth (length b) idx 0; l0])) (upto l)); [reflexivity|].
    apply mapo_ext. intros j _. rewrite bproj_unsqueeze by (rewrite firstn_length; lia). rewrite <- app_assoc, get_unsqueeze. reflexivity.
  Qed.
  (** The shape of a product. *)
  Lemma product_shape (x y p : tensor T) : matrix_product dot x y = Some p ->
    exists bx m k by_ n b, tshape x = bx ++ [m; k] /\ tshape y = by_ ++ [k; n] /\ bshape bx by_ = Some b /\ tshape p = b ++ [m; n] /\ twf p.
  Proof.
    unfold matrix_product. destruct (rev (tshape x)) as [|k [|m bx]] eqn:Ex; try discriminate.
    destruct (rev (tshape y)) as [|n [|k' by_]] eqn:Ey; try discriminate.
    destruct (bshape (rev bx) (rev by_)) as [b|] eqn:Eb; [|discriminate]. destruct (N.eqb_spec k k') as [<-|]; [|discriminate].
    intros H. exists (rev bx), m, k, (rev by_), n, b. apply (f_equal (@rev N)) in Ex, Ey. rewrite rev_involutive in Ex, Ey.
    rewrite Ex, Ey. cbn. rewrite <- !app_assoc. repeat split; auto; apply (tab_wf _ _ _ H).
  Qed.

  Lemma not_vector (x : tensor T) : (2 <= length (tshape x))%nat -> is_vector x = false.
  Proof. intros H. apply Nat.eqb_neq. lia. Qed.
  Lemma onnx_matmul_general x y : (2 <= length (tshape x))%nat -> (2 <= length (tshape y))%nat -> onnx_matmul dot x y = matrix_product dot x y.
  Proof.
    intros Hx Hy. unfold onnx_matmul, as_row, as_column. rewrite !not_vector by assumption.
    destruct (matrix_product dot x y) as [p|] eqn:E; [|reflexivity]. destruct (product_shape _ _ _ E) as (bx & m & k & by_ & n & b & _ & _ & _ & Ep & _).
    cbv zeta. rewrite Ep, app_length. cbn [length]. replace (length b + 2 - 2)%nat with (length b) by lia.
    rewrite firstn_app, firstn_all, Nat.sub_diag. cbn [firstn]. rewrite app_nil_r.
    rewrite !app_nth2 by lia. rewrite Nat.sub_diag. replace (S (length b) - length b)%nat with 1%nat by lia. cbn [nth app].
    rewrite <- Ep. destruct p; reflexivity.
  Qed.
  Lemma onnx_matmul_column x k y z : tshape y = [k] -> (2 <= length (tshape x))%nat -> onnx_matmul dot x y = Some z ->
    exists b m p, matrix_product dot x (mkT [k; 1] (tdata y)) = Some p /\ tshape p = b ++ [m; 1] /\ twf p /\ z = mkT (b ++ [m]) (tdata p) /\ length (tshape x) = (length b + 2)%nat.
  Proof.
    intros Sy Hx. unfold onnx_matmul, as_row, as_column. rewrite not_vector by exact Hx. unfold is_vector. rewrite Sy. cbn [length Nat.eqb app].
    destruct (matrix_product dot x _) as [p|] eqn:E; [|discriminate]. destruct (product_shape _ _ _ E) as (bx & m & k' & by_ & n & b & Ex & Ey & Eb & Ep & W).
    cbn [tshape] in Ey. destruct by_ as [|? [|? l]]; [|discriminate Ey|destruct l; discriminate Ey]. cbn in Ey. injection Ey as <- <-.
    cbv zeta. rewrite Ep, app_length. cbn [length]. replace (length b + 2 - 2)%nat with (length b) by lia.
    rewrite firstn_app, firstn_all, Nat.sub_diag. cbn [firstn]. rewrite app_nil_r.
    rewrite !app_nth2 by lia. rewrite Nat.sub_diag. cbn [nth app]. intros H. injection H as <-. exists b, m, p. repeat split; auto.
    rewrite Ex, app_length. rewrite (bshape_len _ _ _ Eb). cbn. lia.
  Qed.
  Lemma onnx_matmul_row x k y z : tshape x = [k] -> (2 <= length (tshape y))%nat -> onnx_matmul dot x y = Some z ->
    exists b n p, matrix_product dot (mkT [1; k] (tdata x)) y = Some p /\ tshape p = b ++ [1; n] /\ twf p /\ z = mkT (b ++ [n]) (tdata p) /\ length (tshape y) = (length b + 2)%nat.
  Proof.
    intros Sx Hy. unfold onnx_matmul, as_row, as_column. rewrite (not_vector y) by exact Hy. unfold is_vector. rewrite Sx. cbn [length Nat.eqb app].
    destruct (matrix_product dot _ y) as [p|] eqn:E; [|discriminate]. destruct (product_shape _ _ _ E) as (bx & m & k' & by_ & n & b & Ex & Ey & Eb & Ep & W).
    cbn [tshape] in Ex. destruct bx as [|? [|? l]]; [|discriminate Ex|destruct l; discriminate Ex]. cbn in Ex. injection Ex as <- <-.
    cbv zeta. rewrite Ep, app_length. cbn [length]. replace (length b + 2 - 2)%nat with (length b) by lia.
    rewrite firstn_app, firstn_all, Nat.sub_diag. cbn [firstn]. rewrite app_nil_r.
    rewrite !app_nth2 by lia. replace (S (length b) - length b)%nat with 1%nat by lia. cbn [nth app]. intros H. injection H as <-. exists b, n, p. repeat split; auto.
    rewrite Ey, app_length. rewrite (bshape_len _ _ _ Eb). cbn. lia.
  Qed.
  Lemma one_dim (x : tensor T) : length (tshape x) = 1%nat -> exists k, tshape x = [k].
  Proof. destruct (tshape x) as [|k [|? ?]]; try discriminate. eauto. Qed.
  (** The rank of the result. *)
  Lemma onnx_matmul_rank x y z : onnx_matmul dot x y = Some z -> (1 <= length (tshape x))%nat -> (1 <= length (tshape y))%nat ->
    ~ (length (tshape x) = 1%nat /\ length (tshape y) = 1%nat) ->
    length (tshape z) = (Nat.max (length (tshape x)) (length (tshape y)) -
      (if (length (tshape x) =? 1) || (length (tshape y) =? 1) then 1 else 0))%nat.
  Proof.
    intros H Hx Hy Hn. destruct (Nat.eqb_spec (length (tshape x)) 1) as [Ox|Ox]; [|destruct (Nat.eqb_spec (length (tshape y)) 1) as [Oy|Oy]].
    - destruct (one_dim x Ox) as [k Sx]. destruct (onnx_matmul_row x k y z Sx ltac:(lia) H) as (b & n & p & _ & _ & _ & -> & L).
      cbn [tshape orb]. rewrite app_length. cbn. lia.
    - destruct (one_dim y Oy) as [k Sy]. destruct (onnx_matmul_column x k y z Sy ltac:(lia) H) as (b & n & p & _ & _ & _ & -> & L).
      cbn [tshape orb]. rewrite app_length. cbn. lia.
    - rewrite onnx_matmul_general in H by lia. destruct (product_shape _ _ _ H) as (bx & m & k' & by_ & n & b & Ex & Ey & Eb & Ep & W).
      rewrite Ex, Ey, Ep, !app_length, (bshape_len _ _ _ Eb). cbn. lia.
  Qed.

  Variables (add sub mul : T -> T -> T) (of_f32 : N -> T).
  Let run := mrun dot add sub mul of_f32.
  Lemma product_code_ok e l r x y z ol or_ :
    run e l = Some (VTensor x) -> run e r = Some (VTensor y) ->
    (1 <= length (tshape x))%nat -> (1 <= length (tshape y))%nat -> ~ (length (tshape x) = 1%nat /\ length (tshape y) = 1%nat) ->
    onnx_matmul dot x y = Some z ->
    (length (tshape y) = 1%nat -> ol = N.of_nat (length (tshape z))) -> (length (tshape x) = 1%nat -> or_ = N.of_nat (length (tshape z))) ->
    run e (product_code l r (N.of_nat (length (tshape x))) (N.of_nat (length (tshape y))) ol or_) = Some (VTensor z).
  Proof.
    intros Rl Rr Hx Hy Hn H Hol Hor. unfold product_code. destruct (N.compare_spec (N.of_nat (length (tshape x))) (N.of_nat (length (tshape y)))) as [C|C|C].
    - unfold run in *. cbn [mrun]. rewrite Rl, Rr. unfold b_matmul. replace (length (tshape x) =? length (tshape y))%nat with true by lia.
      replace (2 <=? length (tshape x))%nat with true by lia. cbn [andb]. rewrite <- onnx_matmul_general, H by lia. reflexivity.
    - destruct (N.eqb_spec (N.of_nat (length (tshape x))) 1) as [O|O].
      + destruct (one_dim x ltac:(lia)) as [k Sx]. destruct (onnx_matmul_row x k y z Sx ltac:(lia) H) as (b & n & p & Hp & Sp & W & -> & L).
        unfold run in *. cbn [mrun]. rewrite Rl, Rr. unfold b_lead. replace (length (tshape x) <=? _)%nat with true by lia. cbn [option_map].
        unfold b_matmul. cbn [unsqueeze tshape]. rewrite app_length, repeat_length. 
        replace (_ =? length (tshape y))%nat with true by lia. replace (2 <=? _)%nat with true by lia. cbn [andb].
        replace (unsqueeze _ x) with (unsqueeze (length b) (mkT [1; k] (tdata x))).
        2:{ unfold unsqueeze. cbn [tshape tdata]. f_equal. rewrite Sx. cbn [length]. replace (N.to_nat (N.of_nat (length (tshape y))) - 1)%nat with (length b + 1)%nat by lia.
            rewrite repeat_app, <- app_assoc. reflexivity. }
        rewrite product_lead_l by (cbn [tshape length]; lia). rewrite Hp. cbn [option_map].
        replace (Z.of_N (N.of_nat (length (tshape y)) - 2)) with (Z.of_nat (length b)) by lia.
        rewrite (squeeze_at b [n] p or_ Sp W (Hor ltac:(lia))). reflexivity.
      + unfold run in *. cbn [mrun]. rewrite Rl, Rr. unfold b_lead. replace (length (tshape x) <=? _)%nat with true by lia. cbn [option_map].
        unfold b_matmul. cbn [unsqueeze tshape]. rewrite app_length, repeat_length. 
        replace (_ =? length (tshape y))%nat with true by lia. replace (2 <=? _)%nat with true by lia. cbn [andb].
        rewrite product_lead_l by lia. rewrite <- onnx_matmul_general, H by lia. reflexivity.
    - destruct (N.eqb_spec (N.of_nat (length (tshape y))) 1) as [O|O].
      + destruct (one_dim y ltac:(lia)) as [k Sy]. destruct (onnx_matmul_column x k y z Sy ltac:(lia) H) as (b & n & p & Hp & Sp & W & -> & L).
        unfold run in *. cbn [mrun]. rewrite Rl, Rr. rewrite O. rewrite (column_axes _ k y Sy) by lia. cbn [option_map].
        unfold b_matmul. cbn [tshape]. rewrite app_length, repeat_length. cbn [length].
        replace (length (tshape x) =? _)%nat with true by lia. replace (2 <=? _)%nat with true by lia. cbn [andb].
        match goal with |- context [repeat 1 ?j ++ [k; 1]] => change (mkT (repeat 1 j ++ [k; 1]) (tdata y)) with (unsqueeze j (mkT [k; 1] (tdata y))) end.
        rewrite product_lead_r by (cbn [tshape length]; lia). rewrite Hp. cbn [option_map].
        replace (b ++ [n; 1]) with ((b ++ [n]) ++ [1]) in Sp by (rewrite <- app_assoc; reflexivity).
        replace (Z.of_N (N.of_nat (length (tshape x)) - 1)) with (Z.of_nat (length (b ++ [n]))) by (rewrite app_length; cbn; lia).
        rewrite (squeeze_at (b ++ [n]) [] p ol Sp W); [rewrite app_nil_r; reflexivity|]. rewrite app_nil_r. apply Hol. lia.
      + unfold run in *. cbn [mrun]. rewrite Rl, Rr. unfold b_lead. replace (length (tshape y) <=? _)%nat with true by lia. cbn [option_map].
        unfold b_matmul. cbn [unsqueeze tshape]. rewrite app_length, repeat_length. 
        replace (length (tshape x) =? _)%nat with true by lia. replace (2 <=? _)%nat with true by lia. cbn [andb].
        rewrite product_lead_r by lia. rewrite <- onnx_matmul_general, H by lia. reflexivity.
  Qed.
End Product.
