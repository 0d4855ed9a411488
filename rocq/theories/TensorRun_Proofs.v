(** Lemmas about the code emitted for operators on device tensors: what the
    emitted calls compute. *)
From Coq Require Import Lia ZifyBool ZifyNat ZifyN.
From Verif Require Import Tensor_Proofs Fold_Proofs BinOps_Proofs ShapeOps_Proofs AxisOps_Proofs RankOps_Proofs Permute_Proofs ShapeRun_Proofs Index_Proofs.
From Verif Require Import TensorRun_Spec TensorRun_Model.
Import Tensor_Spec BinOps_Spec RankOps_Spec ShapeRun_Spec Permute_Spec.
Local Open Scope N_scope.

(** ** General *)
Lemma tab_elems {A} (P : A -> Prop) s f (z : tensor A) : tab s f = Some z ->
  (forall idx v, f idx = Some v -> P v) -> Forall P (tdata z).
Proof.
  unfold tab. intros H Hf. destruct (mapo f (indices s)) as [l|] eqn:E; [|discriminate H]. injection H as <-. cbn [tdata].
  revert l E. induction (indices s) as [|i r IH]; intros l E; cbn in E; [injection E as <-; constructor|].
  destruct (f i) as [v|] eqn:Ev; [|discriminate E]. destruct (mapo f r) as [l'|]; [|discriminate E]. injection E as <-.
  constructor; [exact (Hf _ _ Ev)|apply IH; reflexivity].
Qed.
Lemma get_In {A} (x : tensor A) idx v : get x idx = Some v -> In v (tdata x).
Proof. apply nth_error_In. Qed.
Lemma b_reshape_ok {A} s (x : tensor A) : twf x -> prodN s = prodN (tshape x) -> b_reshape s x = Some (mkT s (tdata x)).
Proof. intros W E. unfold b_reshape, reshape_flat. unfold twf in W. rewrite W, E. replace (N.of_nat _ =? _) with true by lia. reflexivity. Qed.
Lemma enum_app {A} (l : list A) : forall i, enumerate_from i l = combine (seq i (length l)) l.
Proof. induction l as [|a l IH]; intros i; cbn; [reflexivity|]. rewrite IH. reflexivity. Qed.

(** ** Transpose *)
Lemma where_is_index i p : where_is i p = index_of i p.
Proof. induction p as [|j p IH]; cbn; [reflexivity|]. rewrite Nat.eqb_sym, IH. reflexivity. Qed.
Lemma transposed_unique {A} p (x r r' : tensor A) : transposed p x r -> transposed p x r' -> r = r'.
Proof.
  intros (Hp & W & S & G) (_ & W' & S' & G'). apply tensor_ext; auto; [congruence|]. intros idx Hv. rewrite S in Hv.
  assert (Hl : length idx = length (tshape x)).
  { apply Forall2_length in Hv. rewrite Hv, pick_length. rewrite (Permutation_length Hp). apply seq_length. }
  rewrite <- (pick_unpick p _ idx Hp Hl). rewrite G, G'; [reflexivity| |]; apply unpick_valid; assumption.
Qed.
Lemma b_permute_ok p x z : Forall (fun i => 0 <= i)%Z p -> twf x -> transposed (positions p) x z -> b_permute p x = Some z.
Proof.
  intros F W T. destruct T as [Hp T']. pose proof (conj Hp T') as T. fold (transposed (positions p) x z) in T.
  unfold b_permute. cbv zeta.
  assert (Hq : map (dim_of (length (tshape x))) p = p).
  { clear -F. induction F as [|i p Hi F IH]; cbn; [reflexivity|]. rewrite IH. unfold dim_of. destruct (Z.ltb_spec i 0); [lia|reflexivity]. }
  rewrite Hq. assert (Hl : length p = length (tshape x)).
  { apply Permutation_length in Hp. unfold positions in Hp. rewrite map_length, seq_length in Hp. exact Hp. }
  rewrite Hl, Nat.eqb_refl. replace (forallb _ _) with true.
  2:{ symmetry. apply forallb_forall. intros i Hi. apply existsb_exists. eapply Permutation_in in Hi; [|apply Permutation_sym; exact Hp].
      unfold positions in Hi. apply in_map_iff in Hi. destruct Hi as (j & <- & Hj). exists j. split; [exact Hj|]. rewrite Forall_forall in F. specialize (F j Hj). lia. }
  cbn [andb]. change (map (fun i => nth i (tshape x) 0) (map Z.to_nat p)) with (pick (positions p) (tshape x)).
  rewrite (tab_ext _ _ (fun j => get x (unpick (positions p) j))).
  - destruct (transpose_ok (positions p) x Hp W) as (r & Hr & Tr). unfold transpose in Hr. rewrite Hr. f_equal. exact (transposed_unique _ _ _ _ Tr T).
  - intros j _. f_equal. unfold unpick, positions. rewrite map_length, Hl. apply map_ext. intros i. rewrite where_is_index. reflexivity.
Qed.

(** ** Reshape *)
Definition half (vd : Z * N) : option N := if (fst vd =? -1)%Z then None else Some (snd vd).
Definition is_none (o : option N) : bool := match o with None => true | _ => false end.
Lemma fill_none k : forall ps, filter is_none (map half ps) = [] -> map (fill k) (map half ps) = map snd ps.
Proof.
  induction ps as [|[v d] ps IH]; cbn [map filter]; [reflexivity|]. assert (E : half (v, d) = if (v =? -1)%Z then None else Some d) by reflexivity. rewrite E. cbn [snd]. destruct (Z.eqb_spec v (-1)); cbn [is_none fill].
  - discriminate.
  - intros H. rewrite IH by exact H. reflexivity.
Qed.
Lemma fill_one : forall ps, length (filter is_none (map half ps)) = 1%nat ->
  exists d, prodN (map snd ps) = d * prodN (map (fill 1) (map half ps)) /\ map (fill d) (map half ps) = map snd ps.
Proof.
  induction ps as [|[v d] ps IH]; cbn [map filter]; [discriminate|]. assert (E : half (v, d) = if (v =? -1)%Z then None else Some d) by reflexivity. rewrite E. cbn [snd]. destruct (Z.eqb_spec v (-1)); cbn [is_none fill prodN length].
  - intros H. assert (H0 : filter is_none (map half ps) = []) by (destruct (filter is_none (map half ps)); [reflexivity|discriminate H]).
    exists d. rewrite !fill_none by exact H0. split; [lia|reflexivity].
  - intros H. destruct (IH H) as (d' & P & M). exists d'. rewrite M. split; [rewrite P; lia|reflexivity].
Qed.
Lemma asked_all s req out : (forall v, In v req -> (-1 <= v)%Z) -> length out = length req ->
  (forall i v d, nth_error req i = Some v -> nth_error out i = Some d ->
    (v > 0 /\ Z.of_N d = v)%Z \/ (v = 0%Z /\ nth_error s i = Some d) \/ v = (-1)%Z) ->
  mapo (asked s) (enumerate req) = Some (map half (combine req out)).
Proof.
  unfold enumerate. intros Hlo Hl H.
  assert (G : forall req out k, (forall v, In v req -> (-1 <= v)%Z) -> length out = length req ->
    (forall i v d, nth_error req i = Some v -> nth_error out i = Some d ->
      (v > 0 /\ Z.of_N d = v)%Z \/ (v = 0%Z /\ nth_error s (k + i) = Some d) \/ v = (-1)%Z) ->
    mapo (asked s) (enumerate_from k req) = Some (map half (combine req out))).
  2:{ apply (G req out 0%nat Hlo Hl H). }
  clear. induction req as [|v req IH]; intros [|d out] k Hlo Hl H; try discriminate Hl; cbn [enumerate_from mapo combine map]; [reflexivity|].
  rewrite (IH out (S k)).
  - assert (E : asked s (k, v) = Some (half (v, d))); [|rewrite E; reflexivity].
    unfold asked, half. cbn [fst snd]. specialize (H 0%nat v d eq_refl eq_refl). rewrite Nat.add_0_r in H.
    destruct H as [[H1 H2]|[[H1 H2]|H1]].
    + replace (0 <? v)%Z with true by lia. replace (v =? -1)%Z with false by lia. do 2 f_equal. lia.
    + subst v. cbn. rewrite H2. reflexivity.
    + subst v. reflexivity.
  - intros v' Hv. apply Hlo. right. exact Hv.
  - injection Hl as Hl. exact Hl.
  - intros i v' d' E1 E2. specialize (H (S i) v' d' E1 E2). rewrite <- Nat.add_succ_comm in H. exact H.
Qed.
Lemma count_half : forall req out, length out = length req -> length (filter is_none (map half (combine req out))) = count_z (-1) req.
Proof.
  unfold count_z. induction req as [|v req IH]; intros [|d out] H; try discriminate H; [reflexivity|]. injection H as H. cbn [combine map filter].
  unfold half at 1. cbn [fst snd]. rewrite (Z.eqb_sym (-1) v). destruct (v =? -1)%Z; cbn; rewrite IH by exact H; reflexivity.
Qed.
Lemma combine_snd {A B} : forall (l : list A) (r : list B), length r = length l -> map snd (combine l r) = r.
Proof. induction l as [|a l IH]; intros [|b r] H; try discriminate H; [reflexivity|]. cbn. rewrite IH; [reflexivity|]. injection H as H. exact H. Qed.
Lemma b_reshape_to_ok {A} l s (x : tensor A) : twf x -> prodN (tshape x) <> 0 -> (forall v, In v l -> (-1 <= v)%Z) -> reshape_of false (tshape x) l s ->
  b_reshape_to l x = Some (mkT s (tdata x)).
Proof.
  intros W Hne Hlo (Hl & Hp & Hone & _ & H). unfold b_reshape_to.
  rewrite (asked_all (tshape x) l s Hlo Hl).
  2:{ intros i v d E1 E2. destruct (H i v d E1 E2) as [?|[(_ & ? & _)|[(? & _ & ?)|?]]]; auto. discriminate. }
  cbn [obind]. change (filter _ (map half (combine l s))) with (filter is_none (map half (combine l s))).
  pose proof (proj2 (count_one (-1)%Z l)) as C. rewrite <- (count_half l s Hl) in C.
  assert (Hc : (length (filter is_none (map half (combine l s))) <= 1)%nat).
  { apply C. exact Hone. }
  destruct (length (filter is_none (map half (combine l s)))) as [|[|k]] eqn:E; [| |lia].
  - apply length_zero_iff_nil in E. rewrite fill_none by exact E. rewrite combine_snd by exact Hl. apply b_reshape_ok; assumption.
  - destruct (fill_one _ E) as (d & P & M). rewrite combine_snd in * by exact Hl.
    set (p := prodN (map (fill 1) (map half (combine l s)))) in *. cbv zeta.
    assert (Hp0 : p <> 0) by (intros Z; rewrite Z in P; lia).
    assert (Hd : prodN (tshape x) / p = d) by (rewrite <- Hp, P; apply N.div_mul; exact Hp0).
    assert (Hm : prodN (tshape x) mod p = 0) by (rewrite <- Hp, P; apply N.mod_mul; exact Hp0).
    rewrite Hm, Hd. replace (p =? 0) with false by lia. cbn. rewrite M. apply b_reshape_ok; assumption.
Qed.

(** ** Flatten *)
Lemma as_i32_small k : (Z.of_N k <= 2147483647)%Z -> as_i32 k = Z.of_N k.
Proof. intros H. unfold as_i32. rewrite Z.mod_small by lia. lia. Qed.
Lemma prod_split {s} a : prodN (firstn a s) * prodN (skipn a s) = prodN s.
Proof. rewrite <- prodN_app, firstn_skipn. reflexivity. Qed.
Lemma flatten_code_ok a x : twf x -> prodN (tshape x) <> 0 -> (Z.of_N (prodN (tshape x)) <= 2147483647)%Z -> a <= N.of_nat (length (tshape x)) ->
  flatten_code a x = Some (mkT [prodN (firstn (N.to_nat a) (tshape x)); prodN (skipn (N.to_nat a) (tshape x))] (tdata x)).
Proof.
  intros W Hne Hb Ha. unfold flatten_code, range. replace (0 <=? a) with true by lia. replace (a <=? N.of_nat (length (tshape x))) with true by lia. cbn [andb obind].
  change (skipn (N.to_nat 0) (tshape x)) with (tshape x). rewrite N.sub_0_r.
  pose proof (prod_split (s := tshape x) (N.to_nat a)) as P. set (u := prodN (firstn _ _)) in *. set (v := prodN (skipn _ _)) in *.
  assert (u <> 0 /\ v <> 0) by (split; intros E; rewrite E in P; lia). assert (u <= prodN (tshape x)) by nia.
  rewrite as_i32_small by lia. rewrite (b_reshape_to_ok _ [u; v] x W Hne).
  - reflexivity.
  - intros w [<-|[<-|[]]]; lia.
  - split; [reflexivity|]. split; [cbn; lia|]. split; [|split; [discriminate|]].
    + assert (G : forall i, nth_error [Z.of_N u; (-1)%Z] i = Some (-1)%Z -> i = 1%nat).
      { intros [|[|[|i]]] E; cbn in E; try discriminate E; [injection E as E; lia|reflexivity]. }
      intros i j Ei Ej. rewrite (G i Ei), (G j Ej). reflexivity.
    + intros [|[|i]] w d E1 E2; cbn in E1, E2.
      * injection E1 as <-. injection E2 as <-. left. lia.
      * injection E1 as <-. right. right. right. reflexivity.
      * destruct i; discriminate E1.
Qed.

(** ** Squeeze and Unsqueeze *)
Lemma dim_of_position r a : (- Z.of_nat r <= a < Z.of_nat r)%Z -> dim_of r a = Z.of_nat (position r a) /\ (position r a < r)%nat.
Proof.
  intros H. unfold dim_of, position.
  destruct (Z.ltb_spec a 0).
  - assert (E : (a mod Z.of_nat r = a + Z.of_nat r)%Z) by (symmetry; apply Z.mod_unique with (-1)%Z; lia). rewrite E. lia.
  - rewrite Z.mod_small by lia. lia.
Qed.
Lemma memq r axes i : (forall a, In a axes -> (- Z.of_nat r <= a < Z.of_nat r)%Z) ->
  existsb (Z.eqb (Z.of_nat i)) (map (dim_of r) axes) = named_b r axes i.
Proof.
  intros H. unfold named_b. induction axes as [|a axes IH]; cbn; [reflexivity|].
  rewrite IH by (intros; apply H; right; assumption). f_equal.
  destruct (dim_of_position r a (H a (or_introl eq_refl))) as [-> _]. destruct (Nat.eqb_spec (position r a) i); lia.
Qed.
Lemma deleted_filter P (f : nat -> bool) : (forall i, f i = true <-> P i) -> forall i s out, deleted P i s out ->
  map snd (filter (fun id => negb (f (fst id))) (enumerate_from i s)) = out.
Proof.
  intros Hf. induction 1 as [i|i d s out HP D IH|i d s out HP D IH]; cbn; [reflexivity| |].
  - rewrite (proj2 (Hf i) HP). exact IH.
  - destruct (f i) eqn:E; [apply Hf in E; contradiction|]. cbn. rewrite IH. reflexivity.
Qed.
Lemma ones_prod P (f : nat -> bool) : (forall i, f i = true <-> P i) -> forall i s out, deleted P i s out ->
  (forall k d, P (i + k)%nat -> nth_error s k = Some d -> d = 1) -> prodN out = prodN s.
Proof.
  intros Hf. induction 1 as [i|i d s out HP D IH|i d s out HP D IH]; intros H1; cbn; [reflexivity| |].
  - rewrite (H1 0%nat d); [|rewrite Nat.add_0_r; exact HP|reflexivity]. rewrite IH; [lia|]. intros k d' Hk E. apply (H1 (S k) d'); [rewrite <- Nat.add_succ_comm; exact Hk|exact E].
  - rewrite IH; [reflexivity|]. intros k d' Hk E. apply (H1 (S k) d'); [rewrite <- Nat.add_succ_comm; exact Hk|exact E].
Qed.
Lemma b_squeeze_ok {A} axes s (x : tensor A) : twf x -> axes <> [] -> squeeze_of axes (tshape x) s ->
  b_squeeze_dims (N.of_nat (length s)) axes x = Some (mkT s (tdata x)).
Proof.
  intros W Hne ([Hv Hn] & H1 & D). unfold b_squeeze_dims. cbv zeta. set (r := length (tshape x)) in *.
  assert (F : forall l, filter (fun id : nat * N => negb (existsb (Z.eqb (Z.of_nat (fst id))) (map (dim_of r) axes))) l = filter (fun id => negb (named_b r axes (fst id))) l).
  { intros l. apply filter_ext. intros [i d]. cbn [fst]. rewrite memq by exact Hv. reflexivity. }
  rewrite !F. unfold enumerate. rewrite <- (map_length snd (filter _ _)).
  rewrite (deleted_filter _ (named_b r axes) (named_b_spec r axes) 0 (tshape x) s D). rewrite N.eqb_refl.
  replace (Nat.eqb (length axes) 0) with false by (destruct axes; [contradiction|reflexivity]).
  replace (forallb (fun a => (0 <=? a)%Z && (a <? Z.of_nat r)%Z) _) with true.
  2:{ symmetry. rewrite forallb_forall. intros b Hb. apply in_map_iff in Hb. destruct Hb as (a & <- & Ha). destruct (dim_of_position r a (Hv a Ha)) as [-> ?]. lia. }
  replace (forallb (fun id => _ || _) _) with true.
  2:{ symmetry. rewrite forallb_forall. intros [i d] Hi. cbn [fst snd]. rewrite memq by exact Hv. destruct (named_b r axes i) eqn:E; [|reflexivity].
      apply named_b_spec in E. rewrite enum_app in Hi. apply In_nth_error in Hi. destruct Hi as [k Hk].
      assert (Hk' : nth_error (seq 0 (length (tshape x))) k = Some i /\ nth_error (tshape x) k = Some d).
      { clear -Hk. revert k Hk. generalize (seq 0 (length (tshape x))) as l1. generalize (tshape x) as l2. induction l2 as [|b l2 IH]; intros [|a l1] [|k] H; cbn in *; try discriminate H; [injection H as <- <-; auto|apply IH, H]. }
      destruct Hk' as [K1 K2]. assert (k = i). { assert (k < length (tshape x))%nat by (apply nth_error_Some; congruence). rewrite (nth_error_nth' _ 0%nat) in K1 by (rewrite seq_length; lia). rewrite seq_nth in K1 by lia. injection K1 as K1. lia. }
      subst k. rewrite (H1 i d E K2). reflexivity. }
  cbn [negb andb]. apply b_reshape_ok; [exact W|].
  apply (ones_prod _ (named_b r axes) (named_b_spec r axes) 0 _ _ D). intros k d Hk E. exact (H1 k d Hk E).
Qed.

Lemma ones_in_ok P axes : (forall i, existsb (Z.eqb (Z.of_nat i)) axes = true <-> P i) -> forall i out s, deleted P i out s ->
  (forall k d, P (i + k)%nat -> nth_error out k = Some d -> d = 1) -> ones_in axes (Z.of_nat i) (length out) s = Some out.
Proof.
  intros Hf. induction 1 as [i|i d out s HP D IH|i d out s HP D IH]; intros H1; cbn [ones_in length]; [reflexivity| |].
  - rewrite (proj2 (Hf i) HP). rewrite (H1 0%nat d); [|rewrite Nat.add_0_r; exact HP|reflexivity].
    replace (Z.of_nat i + 1)%Z with (Z.of_nat (S i)) by lia. rewrite IH; [reflexivity|]. intros k d' Hk E. apply (H1 (S k) d'); [rewrite <- Nat.add_succ_comm; exact Hk|exact E].
  - destruct (existsb _ axes) eqn:E; [apply Hf in E; contradiction|]. replace (Z.of_nat i + 1)%Z with (Z.of_nat (S i)) by lia.
    rewrite IH; [reflexivity|]. intros k d' Hk E'. apply (H1 (S k) d'); [rewrite <- Nat.add_succ_comm; exact Hk|exact E'].
Qed.
Lemma b_unsqueeze_ok axes s x : twf x -> Forall (fun a => 0 <= a)%Z axes -> unsqueeze_of axes (tshape x) s ->
  b_unsqueeze_dims (N.of_nat (length s)) axes x = Some (mkT s (tdata x)).
Proof.
  intros W F (Hl & [Hv Hn] & H1 & D). unfold b_unsqueeze_dims. rewrite Forall_forall in F.
  replace (forallb _ axes) with true.
  2:{ symmetry. rewrite forallb_forall. intros a Ha. specialize (F a Ha). specialize (Hv a Ha). lia. }
  rewrite Nat2N.id. change 0%Z with (Z.of_nat 0).
  assert (Hm : forall i, existsb (Z.eqb (Z.of_nat i)) axes = true <-> named (length s) axes i).
  { intros i. rewrite <- named_b_spec, <- memq by exact Hv. replace (map (dim_of (length s)) axes) with axes; [reflexivity|].
    rewrite <- (map_id axes) at 1. apply map_ext_in. intros a Ha. specialize (F a Ha). unfold dim_of. replace (a <? 0)%Z with false by lia. reflexivity. }
  rewrite (ones_in_ok _ axes Hm 0 s (tshape x) D) by (intros k d Hk E; exact (H1 k d Hk E)). cbn [obind].
  apply b_reshape_ok; [exact W|]. symmetry.
  apply (ones_prod _ (named_b (length s) axes) (named_b_spec _ axes) 0 _ _ D). intros k d Hk E. exact (H1 k d Hk E).
Qed.

(** ** DepthToSpace and SpaceToDepth *)
Lemma regroup (y : tensor elt) s6 s4 q split f z : tab s4 f = Some z -> prodN s6 = prodN s4 ->
  (forall j, valid_idx s6 j -> exists v, get y (q j) = Some v) ->
  (forall idx, valid_idx s4 idx -> valid_idx s6 (split idx) /\ offset s6 (split idx) = offset s4 idx /\ get y (q (split idx)) = f idx) ->
  obind (tab s6 (fun j => get y (q j))) (b_reshape s4) = Some z.
Proof.
  intros Hz Hp Hd H. destruct (tab_Some s6 (fun j => get y (q j)) Hd) as [r Hr]. rewrite Hr. cbn [obind].
  destruct (tab_wf _ _ _ Hr) as [Wr Sr], (tab_wf _ _ _ Hz) as [Wz Sz].
  rewrite b_reshape_ok by (auto; congruence). f_equal. apply tensor_ext; [|exact Wz|cbn; congruence|].
  - unfold twf in *. cbn. rewrite Wr, Sr, Hp. reflexivity.
  - cbn [tshape]. intros idx Hv. destruct (H idx Hv) as (Hv6 & Ho & Hg). rewrite (get_tab _ _ _ _ Hz Hv), <- Hg, <- (get_tab _ _ _ _ Hr Hv6).
    unfold get. cbn [tshape tdata]. rewrite Sr, Ho. reflexivity.
Qed.
Lemma valid_1 d i : i < d -> valid_idx [d] [i]. Proof. repeat constructor. assumption. Qed.
Lemma valid_cons d s i r : i < d -> valid_idx s r -> valid_idx (d :: s) (i :: r). Proof. constructor; assumption. Qed.
Lemma valid_inv d s idx : valid_idx (d :: s) idx -> exists i r, idx = i :: r /\ i < d /\ valid_idx s r.
Proof. intros H. inversion H; subst. eauto 6. Qed.
Ltac split_valid H := repeat (apply valid_inv in H; let i := fresh "i" in let r := fresh "r" in let Hi := fresh "Hi" in destruct H as (i & r & -> & Hi & H));
  inversion H; subst; clear H.
Ltac make_valid := repeat (apply valid_cons); try (constructor; fail).

Lemma div_lt_mul y h b : y < h * b -> 0 < b -> y / b < h /\ y mod b < b /\ y = b * (y / b) + y mod b.
Proof. intros H Hb. split; [apply N.div_lt_upper_bound; lia|]. split; [apply N.mod_lt; lia|apply N.div_mod; lia]. Qed.

Lemma two_digits i j n m : i < m -> j < n -> i * n + j < n * m.
Proof. intros Hi Hj. assert ((i + 1) * n <= m * n) by (apply N.mul_le_mono_r; lia). lia. Qed.

Lemma depth_code_ok crd bs x z : twf x -> onnx_depth_to_space crd bs x = Some z -> depth_code crd bs x = Some z.
Proof.
  intros W. unfold onnx_depth_to_space, depth_code. destruct x as [s l]. cbn [tshape].
  destruct s as [|b [|c [|h [|w [|? ?]]]]]; try discriminate. destruct ((0 <? bs) && (c mod (bs * bs) =? 0)) eqn:Hc; [|discriminate].
  apply andb_prop in Hc as [Hb Hc]. apply N.ltb_lt in Hb. apply N.eqb_eq in Hc. cbv zeta.
  assert (Hcc : c = c / (bs * bs) * (bs * bs)) by (pose proof (N.div_mod c (bs * bs) ltac:(nia)); lia).
  remember (c / (bs * bs)) as c' eqn:Ec'. clear Ec' Hc. subst c. intros Hz.
  assert (Hgx : forall n k y v, n < b -> k < c' * (bs * bs) -> y < h -> v < w -> exists u, get (mkT [b; c' * (bs * bs); h; w] l) [n; k; y; v] = Some u).
  { intros n k y v Hn Hk Hy Hv. destruct (get_valid (mkT [b; c' * (bs * bs); h; w] l) [n; k; y; v] W) as (u & Hu & _); [make_valid; assumption|eauto]. }
  destruct crd.
  - rewrite b_reshape_ok; [|exact W|cbn [prodN tshape]; ring]. cbn [obind tdata].
    set (y := mkT [b; c'; bs; bs; h; w] l).
    assert (Hgy : forall n k i j a e, get y [n; k; i; j; a; e] = get (mkT [b; c' * (bs * bs); h; w] l) [n; k * (bs * bs) + (i * bs + j); a; e]).
    { intros. unfold get, y. cbn [tshape tdata offset prodN]. do 2 f_equal. ring. }
    change (b_permute _ y) with (tab [b; c'; h; bs; w; bs] (fun j => get y ((fun j => [nth 0 j 0; nth 1 j 0; nth 3 j 0; nth 5 j 0; nth 2 j 0; nth 4 j 0]) j))).
    eapply (regroup y _ _ _ (fun idx => match idx with [n; k; y; v] => [n; k; y / bs; y mod bs; v / bs; v mod bs] | _ => [] end)); [exact Hz|cbn [prodN]; ring| |].
    + intros j Hj. split_valid Hj. cbn [nth]. rewrite Hgy. apply Hgx; auto. nia.
    + intros idx Hv. split_valid Hv. cbn [nth].
      destruct (div_lt_mul i1 h bs) as (A1 & A2 & A3); [assumption..|]. destruct (div_lt_mul i2 w bs) as (B1 & B2 & B3); [assumption..|].
      split; [make_valid; assumption|]. split; [|rewrite Hgy; reflexivity].
      cbn [offset prodN]. revert A3 B3. generalize (i1 / bs) (i1 mod bs) (i2 / bs) (i2 mod bs). intros a e a' e' -> ->. ring.
  - rewrite b_reshape_ok; [|exact W|cbn [prodN tshape]; ring]. cbn [obind tdata].
    set (y := mkT [b; bs; bs; c'; h; w] l).
    assert (Hgy : forall n k i j a e, get y [n; i; j; k; a; e] = get (mkT [b; c' * (bs * bs); h; w] l) [n; (i * bs + j) * c' + k; a; e]).
    { intros. unfold get, y. cbn [tshape tdata offset prodN]. do 2 f_equal. ring. }
    change (b_permute _ y) with (tab [b; c'; h; bs; w; bs] (fun j => get y ((fun j => [nth 0 j 0; nth 3 j 0; nth 5 j 0; nth 1 j 0; nth 2 j 0; nth 4 j 0]) j))).
    eapply (regroup y _ _ _ (fun idx => match idx with [n; k; y; v] => [n; k; y / bs; y mod bs; v / bs; v mod bs] | _ => [] end)); [exact Hz|cbn [prodN]; ring| |].
    + intros j Hj. split_valid Hj. cbn [nth]. rewrite Hgy. apply Hgx; auto. apply two_digits; [apply two_digits|]; assumption.
    + intros idx Hv. split_valid Hv. cbn [nth].
      destruct (div_lt_mul i1 h bs) as (A1 & A2 & A3); [assumption..|]. destruct (div_lt_mul i2 w bs) as (B1 & B2 & B3); [assumption..|].
      split; [make_valid; assumption|]. split; [|rewrite Hgy; reflexivity].
      cbn [offset prodN]. revert A3 B3. generalize (i1 / bs) (i1 mod bs) (i2 / bs) (i2 mod bs). intros a e a' e' -> ->. ring.
Qed.
Lemma space_code_ok bs x z : twf x -> onnx_space_to_depth bs x = Some z -> space_code bs x = Some z.
Proof.
  intros W. unfold onnx_space_to_depth, space_code. destruct x as [s l]. cbn [tshape].
  destruct s as [|b [|c [|h [|w [|? ?]]]]]; try discriminate. destruct ((0 <? bs) && (h mod bs =? 0) && (w mod bs =? 0)) eqn:Hc; [|discriminate].
  apply andb_prop in Hc as [Hc Hw]. apply andb_prop in Hc as [Hb Hh]. apply N.ltb_lt in Hb. apply N.eqb_eq in Hh. apply N.eqb_eq in Hw.
  assert (Eh : h = h / bs * bs) by (pose proof (N.div_mod h bs ltac:(lia)); lia). assert (Ew : w = w / bs * bs) by (pose proof (N.div_mod w bs ltac:(lia)); lia).
  remember (h / bs) as h' eqn:E1. remember (w / bs) as w' eqn:E2. clear E1 E2 Hh Hw. subst h w. intros Hz.
  rewrite b_reshape_ok; [|exact W|cbn [prodN tshape]; ring]. cbn [obind tdata].
  set (y := mkT [b; c; h'; bs; w'; bs] l).
  assert (Hgy : forall n k i j a e, get y [n; k; a; i; e; j] = get (mkT [b; c; h' * bs; w' * bs] l) [n; k; a * bs + i; e * bs + j]).
  { intros. unfold get, y. cbn [tshape tdata offset prodN]. do 2 f_equal. ring. }
  change (b_permute _ y) with (tab [b; bs; bs; c; h'; w'] (fun j => get y ((fun j => [nth 0 j 0; nth 3 j 0; nth 4 j 0; nth 1 j 0; nth 5 j 0; nth 2 j 0]) j))).
  replace [b; c * bs * bs; h'; w'] with [b; c * (bs * bs); h'; w'] by (do 2 f_equal; ring).
  eapply (regroup y _ _ _ (fun idx => match idx with [n; k; y; v] => [n; k / c / bs; (k / c) mod bs; k mod c; y; v] | _ => [] end)); [exact Hz|cbn [prodN]; ring| |].
  - intros j Hj. split_valid Hj. cbn [nth]. rewrite Hgy.
    destruct (get_valid (mkT [b; c; h' * bs; w' * bs] l) [i; i2; i3 * bs + i0; i4 * bs + i1] W) as (u & Hu & _); [make_valid; [assumption..|nia|nia]|eauto].
  - intros idx Hv. split_valid Hv. cbn [nth].
    assert (Hc0 : 0 < c) by (destruct (N.eq_dec c 0); [subst c; lia|lia]).
    destruct (div_lt_mul i0 (bs * bs) c) as (A1 & A2 & A3); [lia|exact Hc0|].
    destruct (div_lt_mul (i0 / c) bs bs) as (B1 & B2 & B3); [exact A1|exact Hb|].
    split; [make_valid; assumption|]. split; [|rewrite Hgy; reflexivity].
    cbn [offset prodN]. clear - A3 B3. revert A3 B3. generalize (i0 / c / bs) ((i0 / c) mod bs). intros a e. generalize (i0 / c) (i0 mod c). intros q m -> ->. ring.
Qed.

(** ** Lists changed at one place *)
Lemma nth_nth_error (l : list N) k v : nth_error l k = Some v -> nth k l 0 = v.
Proof. apply nth_error_nth. Qed.
Lemma firstn_same (l l' : list N) a : length l = length l' -> (forall k, k <> a -> nth_error l k = nth_error l' k) -> firstn a l = firstn a l'.
Proof.
  intros Hl H. apply nth_error_ext. intros k. destruct (Nat.lt_ge_cases k a).
  - rewrite !nth_error_firstn by assumption. apply H. lia.
  - rewrite !(proj2 (nth_error_None _ _)); [reflexivity|rewrite firstn_length; lia..].
Qed.
Lemma skipn_same (l l' : list N) a : (forall k, k <> a -> nth_error l k = nth_error l' k) -> skipn (S a) l = skipn (S a) l'.
Proof. intros H. apply nth_error_ext. intros k. rewrite !nth_error_skipn. apply H. lia. Qed.
Lemma put_back (l : list N) a v : nth_error l a = Some v -> firstn a l ++ v :: skipn (S a) l = l.
Proof.
  revert l. induction a as [|a IH]; intros [|x l] H; try discriminate H.
  - cbn in H. injection H as ->. reflexivity.
  - cbn [firstn skipn app]. rewrite <- (IH l H) at 3. reflexivity.
Qed.
Lemma all2_refl (l : list N) : all2 N.eqb l l = true.
Proof. unfold all2. rewrite Nat.eqb_refl. cbn. induction l as [|x l IH]; cbn; [reflexivity|]. rewrite N.eqb_refl. exact IH. Qed.

(** ** Concat *)
Lemma part_get_at a idx xs : forall k, part_get a idx k xs = match part_at a k xs with
  | Some (t, k) => get t (firstn a idx ++ [k] ++ skipn (S a) idx) | None => None end.
Proof. induction xs as [|x xs IH]; intros k; cbn [part_get part_at]; [reflexivity|]. cbv zeta. destruct (k <? _); [reflexivity|apply IH]. Qed.
Lemma b_cat_ok a xs s out : concat_of a (map tshape xs) s ->
  tab s (fun idx => match part_at a (nth a idx 0) xs with
                    | Some (t, k) => get t (firstn a idx ++ [k] ++ skipn (S a) idx) | None => None end) = Some out ->
  b_cat (N.of_nat a) xs = Some out.
Proof.
  intros (Hne & Ha & Hs & Ht) H. unfold b_cat. cbv zeta. rewrite Nat2N.id. destruct xs as [|x r]; [exfalso; apply Hne; reflexivity|].
  destruct (Hs (tshape x)) as [Hlx Hx]; [left; reflexivity|].
  set (xs := x :: r) in *.
  assert (Hb : (a <? length (tshape x))%nat = true) by (apply Nat.ltb_lt; lia). rewrite Hb. cbn [andb].
  rewrite (proj2 (forallb_forall _ _)).
  - replace (firstn a (tshape x) ++ _) with s.
    + rewrite <- H. apply tab_ext. intros idx Hv. apply part_get_at.
    + rewrite <- (put_back s a _ Ht). f_equal; [|f_equal].
      * symmetry. apply firstn_same; assumption.
      * unfold total. rewrite map_map. reflexivity.
      * symmetry. apply skipn_same; assumption.
  - intros y Hy. destruct (Hs (tshape y)) as [Hly Hy']; [apply in_map; exact Hy|].
    rewrite (firstn_same (tshape y) (tshape x) a), (skipn_same (tshape y) (tshape x) a), !all2_refl; [|intros k Hk; rewrite Hy', Hx by assumption; reflexivity|lia|intros k Hk; rewrite Hy', Hx by assumption; reflexivity].
    cbn. apply Nat.eqb_eq. lia.
Qed.

(** ** Tile *)
Lemma b_repeat_ok l x z : Forall (fun v => 0 < v <= 9223372036854775807)%Z l -> onnx_tile l x = Some z -> b_repeat (map to_usize l) x = Some z.
Proof.
  intros F. unfold onnx_tile, b_repeat. rewrite map_length. destruct (Nat.eqb _ _) eqn:E; [|discriminate]. cbn [andb]. apply Nat.eqb_eq in E.
  destruct (forallb (fun v => 0 <=? v)%Z l); [|discriminate]. intros H.
  assert (Hu : map to_usize l = map Z.to_N l) by (apply map_ext_in; intros v Hv; apply to_usize_to_N; rewrite Forall_forall in F; specialize (F _ Hv); lia).
  rewrite Hu. rewrite (proj2 (forallb_forall _ _)).
  - rewrite <- H. f_equal. clear. generalize (tshape x). intros s. revert l. induction s as [|d s IH]; intros [|v l]; cbn; [reflexivity..|]. f_equal. apply IH.
  - intros v Hv. apply in_map_iff in Hv as (w & <- & Hw). rewrite Forall_forall in F. specialize (F _ Hw). apply negb_true_iff, N.eqb_neq. lia.
Qed.

(** ** Split *)
Lemma at_axis_nth a k l : (a < length l)%nat -> nth a (at_axis a k l) 0 = k.
Proof. intros H. unfold at_axis. rewrite app_nth2; rewrite firstn_length; [|lia]. replace (a - Nat.min a (length l))%nat with O by lia. reflexivity. Qed.
Lemma prodN_at a k l : prodN (at_axis a k l) <> 0 -> k <> 0.
Proof. unfold at_axis. rewrite prodN_app. cbn [app prodN]. intros H ->. lia. Qed.
Lemma b_narrow_ok a from len x z : (a < length (tshape x))%nat -> len <> 0 -> from + len <= nth a (tshape x) 0 ->
  part_of a x from len = Some z -> b_narrow (N.of_nat a) from len x = Some z.
Proof.
  intros Ha Hl Hf H. unfold b_narrow. cbv zeta. rewrite Nat2N.id.
  rewrite (proj2 (Nat.ltb_lt _ _) Ha), (proj2 (N.ltb_lt 0 len)), (proj2 (N.leb_le _ _) Hf) by lia. exact H.
Qed.
Lemma b_split_ok a x : (a < length (tshape x))%nat -> forall sizes from zs, from + total sizes = nth a (tshape x) 0 ->
  parts_from a x from sizes = Some zs -> Forall (fun z => prodN (tshape z) <> 0) zs ->
  b_split (N.of_nat a) from sizes x = Some zs.
Proof.
  intros Ha. induction sizes as [|d r IH]; intros from zs Ht H F; cbn [parts_from b_split] in *.
  - injection H as <-. rewrite Nat2N.id. cbn in Ht. replace (from =? _) with true by lia. reflexivity.
  - destruct (part_of a x from d) as [z|] eqn:Ez; [|discriminate H]. destruct (parts_from a x (from + d) r) as [zs'|] eqn:Er; [|discriminate H].
    injection H as <-. inversion F; subst. cbn [total fold_right] in Ht. fold (total r) in Ht.
    destruct (tab_wf _ _ _ Ez) as [_ Sz]. rewrite Sz in H1. apply prodN_at in H1. replace (d =? 0) with false by lia.
    rewrite (b_narrow_ok a from d x z Ha H1) by (auto; lia). cbn [obind]. rewrite (IH (from + d) zs'); [reflexivity|lia|exact Er|assumption].
Qed.
Lemma chunks_nth : forall k c r i, (i < k)%nat -> nth_error (AxisOps_Model.chunks k c r) i = Some (N.min c (r - N.of_nat i * c)).
Proof.
  induction k as [|k IH]; intros c r [|i] H; try lia; cbn [AxisOps_Model.chunks nth_error].
  - f_equal. lia.
  - rewrite IH by lia. f_equal. rewrite Nat2N.inj_succ, N.mul_succ_l. lia.
Qed.
Lemma even_sizes_ok d n : 0 < n -> even_sizes d n = chunk_sizes d n.
Proof.
  intros Hn. unfold even_sizes, chunk_sizes. cbv zeta.
  change ((d + (n - 1)) / n) with (div_ceil d n).
  apply nth_error_ext. intros k. destruct (Nat.lt_ge_cases k (N.to_nat n)).
  - rewrite chunks_nth by assumption. erewrite map_nth_error by (apply upto_nth; assumption). reflexivity.
  - rewrite !(proj2 (nth_error_None _ _)); [reflexivity|rewrite chunks_length; lia|rewrite map_length, upto_length; lia].
Qed.

(** ** Expand *)
Lemma mapo_rev {A B} (f : A -> option B) l : mapo f (rev l) = option_map (@rev B) (mapo f l).
Proof.
  induction l as [|x l IH]; cbn [rev mapo]; [reflexivity|]. rewrite mapo_app, IH. cbn [mapo].
  destruct (mapo f l), (f x); reflexivity.
Qed.
Lemma combine_rev {A B} (a : list A) (b : list B) : length a = length b -> combine (rev a) (rev b) = rev (combine a b).
Proof.
  revert b. induction a as [|x a IH]; intros [|y b] H; cbn in *; try discriminate; [reflexivity|].
  rewrite combine_app' by (rewrite !rev_length; lia). rewrite IH by lia. reflexivity.
Qed.
Lemma brev_same a : forall b, length a = length b -> brev a b = mapo (fun p => bdim (fst p) (snd p)) (combine a b).
Proof. induction a as [|x a IH]; intros [|y b] H; cbn in *; try discriminate; [reflexivity|]. rewrite IH by lia. reflexivity. Qed.
Lemma brev_longer a : forall b p, length a = length b -> brev a (b ++ p) = option_map (fun c => c ++ p) (brev a b).
Proof.
  induction a as [|x a IH]; intros [|y b] p H; cbn [length] in H; try discriminate; [reflexivity|]. cbn [app brev]. rewrite IH by lia.
  destruct (bdim x y), (brev a b); reflexivity.
Qed.
Lemma bshape_longer a p b : length a = length b ->
  bshape a (p ++ b) = option_map (app p) (mapo (fun p => bdim (fst p) (snd p)) (combine a b)).
Proof.
  intros H. unfold bshape. rewrite rev_app_distr, brev_longer by (rewrite !rev_length; exact H).
  rewrite brev_same, combine_rev, mapo_rev by (rewrite ?rev_length; exact H).
  destruct (mapo _ _); cbn; [|reflexivity]. rewrite rev_app_distr, !rev_involutive. reflexivity.
Qed.
Definition widened (d : N) (v : Z) : Z := if ((v =? 1)%Z && (1 <? d))%bool then Z.of_N d else v.
Lemma set_nth_app {A} (p r : list A) y x : set_nth (p ++ y :: r) (length p) x = p ++ x :: r.
Proof. induction p as [|z p IH]; cbn; [reflexivity|]. rewrite IH. reflexivity. Qed.
Lemma request_ok p : forall todo done ddone q, length done = length ddone -> length todo = length q ->
  fold_left (fun l i => match nth_error l (length p + i), nth_error (ddone ++ todo) i with
                        | Some v, Some d => if ((v =? 1)%Z && (1 <? d))%bool then set_nth l (length p + i) (Z.of_N d) else l
                        | _, _ => l end)
            (seq (length ddone) (length todo)) (p ++ done ++ q) = p ++ done ++ map (fun dv => widened (fst dv) (snd dv)) (combine todo q).
Proof.
  induction todo as [|d todo IH]; intros done ddone [|v q] Hd Hq; cbn [length] in Hq; try discriminate; [reflexivity|].
  cbn [length seq fold_left combine map fst snd].
  rewrite nth_error_app2 by lia. replace (length p + length ddone - length p)%nat with (length ddone) by lia.
  rewrite nth_error_app2 by lia. rewrite Hd, Nat.sub_diag. cbn [nth_error].
  rewrite nth_error_app2 by lia. rewrite Nat.sub_diag. cbn [nth_error].
  assert (E : (if ((v =? 1)%Z && (1 <? d))%bool then set_nth (p ++ done ++ v :: q) (length p + length ddone) (Z.of_N d) else p ++ done ++ v :: q)
              = p ++ (done ++ [widened d v]) ++ q).
  { unfold widened. rewrite <- (app_assoc done). cbn [app]. destruct (_ && _); [|reflexivity].
    rewrite !app_assoc. rewrite <- Hd, <- (app_length p done). apply set_nth_app. }
  rewrite E. specialize (IH (done ++ [widened d v]) (ddone ++ [d]) q). rewrite !app_length in IH. cbn [length] in IH.
  rewrite !Nat.add_1_r in IH. rewrite <- (app_assoc ddone) in IH. cbn [app] in IH.
  replace (ddone ++ d :: todo) with ((ddone ++ [d]) ++ todo) in * by (rewrite <- app_assoc; reflexivity).
  rewrite IH by lia. rewrite <- (app_assoc done). reflexivity.
Qed.
Lemma expand_request_ok dims p q : length dims = length q ->
  expand_request dims (p ++ q) (length p) = p ++ map (fun dv => widened (fst dv) (snd dv)) (combine dims q).
Proof. intros H. exact (request_ok p dims [] [] q eq_refl H). Qed.
Lemma expand_dims_ok dims : forall q s, length dims = length q -> prodN dims <> 0 -> forallb (fun v => 0 <=? v)%Z q = true ->
  mapo (fun p => bdim (fst p) (snd p)) (combine dims (map Z.to_N q)) = Some s ->
  mapo (fun dv => expand_dim (fst dv) (snd dv)) (combine dims (map (fun dv => widened (fst dv) (snd dv)) (combine dims q))) = Some s.
Proof.
  induction dims as [|d dims IH]; intros [|v q] s Hl Hp Hq H; cbn [length] in Hl; try discriminate; [exact H|].
  cbn [map combine mapo fst snd forallb prodN] in *. apply andb_prop in Hq as [Hv Hq].
  destruct (bdim d (Z.to_N v)) as [o|] eqn:Eo; [|discriminate H].
  destruct (mapo _ (combine dims (map Z.to_N q))) as [r|] eqn:Er; [|discriminate H]. injection H as <-.
  rewrite (IH q r) by (auto; nia).
  replace (expand_dim d (widened d v)) with (Some o); [reflexivity|]. symmetry.
  assert (Hd : d <> 0) by nia. unfold bdim in Eo. unfold expand_dim, widened.
  destruct (Z.eqb_spec v 1), (N.ltb_spec 1 d); cbn [andb];
  destruct (N.eqb_spec d (Z.to_N v)); destruct (N.eqb_spec d 1); destruct (N.eqb_spec (Z.to_N v) 1); try discriminate Eo; injection Eo as <-;
  repeat match goal with |- context [if ?b then _ else _] => destruct b eqn:? end; try (f_equal; lia); lia.
Qed.
Lemma expand_code_ok l x z : (length (tshape x) <= length l)%nat -> prodN (tshape x) <> 0 -> onnx_expand l x = Some z ->
  expand_code l (N.of_nat (length (tshape x))) (N.of_nat (length l)) x = Some z.
Proof.
  intros Hl Hp. unfold onnx_expand, expand_code. destruct (forallb _ l) eqn:Hf; [|discriminate]. rewrite N.eqb_refl.
  replace (N.of_nat (length (tshape x)) <=? N.of_nat (length l)) with true by lia. rewrite N.eqb_refl. cbn [andb].
  set (k := (length l - length (tshape x))%nat). replace (N.to_nat _) with k by lia.
  rewrite <- (firstn_skipn k l) at 1. set (p := firstn k l) in *. set (q := skipn k l) in *.
  assert (Hlp : length p = k) by (unfold p; rewrite firstn_length; lia). assert (Hlq : length q = length (tshape x)) by (unfold q; rewrite skipn_length; lia).
  assert (El : l = p ++ q) by (symmetry; apply firstn_skipn). clearbody p q. subst l. rewrite forallb_app in Hf. apply andb_prop in Hf as [Hfp Hfq].
  rewrite map_app, bshape_longer by (rewrite map_length; congruence).
  destruct (mapo _ _) as [s|] eqn:Es; [|discriminate]. cbn [option_map]. intros H.
  rewrite <- Hlp, expand_request_ok by congruence. unfold b_expand. cbv zeta.
  rewrite app_length, map_length, combine_length, Hlq, Nat.min_id.
  replace (length p + length (tshape x) - length (tshape x))%nat with (length p) by lia.
  replace (length (tshape x) <=? length p + length (tshape x))%nat with true by lia.
  rewrite firstn_app_exact, skipn_app_exact, Hfp. cbn [andb].
  rewrite (expand_dims_ok _ q s) by (auto; congruence). cbn [obind]. rewrite <- H. apply tab_ext. intros idx Hv. unfold bproj.
  apply valid_length in Hv. rewrite app_length, map_length, (mapo_length _ _ _ Es), combine_length, map_length, Hlq, Nat.min_id in Hv. rewrite Hv.
  do 4 f_equal. lia.
Qed.

(** ** Where *)
Lemma bshape_length a b c : bshape a b = Some c -> length c = Nat.max (length a) (length b).
Proof.
  unfold bshape. destruct (brev (rev a) (rev b)) as [r|] eqn:E; [|discriminate]. intros H. injection H as <-.
  rewrite rev_length, (brev_length _ _ _ E), !rev_length. reflexivity.
Qed.
Lemma brev_pad a : forall b c j k, brev a b = Some c -> (length a + j = length b + k)%nat ->
  brev (a ++ repeat 1 j) (b ++ repeat 1 k) = Some (c ++ repeat 1 (length a + j - length c)).
Proof.
  induction a as [|x a IH]; intros b c j k H E.
  - cbn in H. injection H as <-. cbn [app length] in *. rewrite brev_ones by (rewrite app_length, repeat_length; lia). do 3 f_equal. lia.
  - destruct b as [|y b].
    + cbn in H. injection H as <-. cbn [app length] in *. rewrite (brev_same _ (repeat 1 k)).
      2:{ rewrite repeat_length. cbn [length]. rewrite app_length, repeat_length. lia. }
      replace (S (length a) + j - S (length a))%nat with j by lia. assert (Ek : k = (S (length a) + j)%nat) by lia. rewrite Ek. clear k E Ek.
      replace (S (length a) + j)%nat with (length ((x :: a) ++ repeat 1 j)) by (cbn; rewrite app_length, repeat_length; reflexivity).
      change (x :: a ++ repeat 1 j) with ((x :: a) ++ repeat 1 j). generalize ((x :: a) ++ repeat 1 j). clear. intros l.
      induction l as [|x l IH]; cbn [length repeat combine mapo fst snd]; [reflexivity|]. rewrite IH. unfold bdim.
      destruct (N.eqb_spec x 1); [reflexivity|]. rewrite N.eqb_refl. reflexivity.
    + cbn [app brev] in *. destruct (bdim x y) as [d|]; [|discriminate H]. destruct (brev a b) as [r|] eqn:Er; [|discriminate H]. injection H as <-.
      cbn [length] in *. rewrite (IH b r j k Er) by lia. reflexivity.
Qed.
Lemma bshape_pad a b c j k : bshape a b = Some c -> (j + length a = k + length b)%nat ->
  bshape (repeat 1 j ++ a) (repeat 1 k ++ b) = Some (repeat 1 (j + length a - length c) ++ c).
Proof.
  unfold bshape. destruct (brev (rev a) (rev b)) as [r|] eqn:E; [|discriminate]. intros H HE. injection H as <-.
  rewrite !rev_app_distr, !rev_repeat, (brev_pad _ _ _ j k E) by (rewrite !rev_length; lia). cbn [option_map].
  rewrite rev_app_distr, rev_repeat, !rev_length. do 3 f_equal. lia.
Qed.
Lemma lead_ok rank x : twf x -> N.of_nat (length (tshape x)) <= rank ->
  lead rank x = Some (unsqueeze (N.to_nat rank - length (tshape x)) x).
Proof.
  intros W H. unfold lead. cbv zeta. destruct (N.ltb_spec (N.of_nat (length (tshape x))) rank) as [Hr|Hr].
  - unfold b_unsqueeze_dims. set (k := (N.to_nat rank - length (tshape x))%nat).
    replace (rank - N.of_nat (length (tshape x))) with (N.of_nat k) by lia.
    rewrite (proj2 (forallb_forall _ _)).
    2:{ intros a Ha. apply in_map_iff in Ha as (i & <- & Hi). apply upto_In in Hi. lia. }
    replace (N.to_nat rank) with (k + length (tshape x))%nat by lia.
    assert (Hm : forall i, existsb (Z.eqb i) (map Z.of_N (upto (N.of_nat k))) = (0 <=? i)%Z && (i <? Z.of_nat k)%Z).
    { intros i. apply Bool.eq_iff_eq_true. rewrite existsb_exists. split.
      - intros (a & Ha & E). apply in_map_iff in Ha as (i' & <- & Hi). apply upto_In in Hi. lia.
      - intros E. exists i. split; [|apply Z.eqb_refl]. apply in_map_iff. exists (Z.to_N i). split; [lia|]. apply upto_In. lia. }
    assert (Hin : forall j i, (i + j = k)%nat -> ones_in (map Z.of_N (upto (N.of_nat k))) (Z.of_nat i) (j + length (tshape x)) (tshape x) = Some (repeat 1 j ++ tshape x)).
    { induction j as [|j IH]; intros i Hi.
      - cbn [Nat.add repeat app]. assert (Hge : (k <= i)%nat) by lia. clear Hi. revert i Hge. generalize (tshape x). intros s.
        induction s as [|d s IHs]; intros i Hi; cbn [length ones_in]; [reflexivity|]. rewrite Hm.
        replace ((0 <=? Z.of_nat i)%Z && (Z.of_nat i <? Z.of_nat k)%Z) with false by lia.
        replace (Z.of_nat i + 1)%Z with (Z.of_nat (S i)) by lia. rewrite IHs by lia. reflexivity.
      - cbn [Nat.add repeat app ones_in]. rewrite Hm. replace ((0 <=? Z.of_nat i)%Z && (Z.of_nat i <? Z.of_nat k)%Z) with true by lia.
        replace (Z.of_nat i + 1)%Z with (Z.of_nat (S i)) by lia. rewrite IH by lia. reflexivity. }
    change 0%Z with (Z.of_nat 0). rewrite (Hin k 0%nat) by lia. cbn [obind]. rewrite b_reshape_ok; [reflexivity|exact W|].
    rewrite prodN_app. clear. induction k as [|k IH]; cbn [repeat prodN]; lia.
  - replace (N.to_nat rank - length (tshape x))%nat with O by lia. rewrite unsqueeze_0. reflexivity.
Qed.
Lemma where_code_ok c x y z rank : twf c -> twf x -> twf y -> onnx_where c x y = Some z -> rank = N.of_nat (length (tshape z)) ->
  obind (lead rank c) (fun c => obind (lead rank x) (fun x => obind (lead rank y) (fun y => b_mask_where c x y))) = Some z.
Proof.
  intros Wc Wx Wy H Hr. unfold onnx_where in H. destruct (bshape (tshape c) (tshape x)) as [s1|] eqn:E1; [|discriminate H].
  destruct (bshape s1 (tshape y)) as [s|] eqn:E2; [|discriminate H]. destruct (tab_wf _ _ _ H) as [_ Sz].
  pose proof (bshape_length _ _ _ E1) as L1. pose proof (bshape_length _ _ _ E2) as L2.
  assert (Lr : N.to_nat rank = length s) by (rewrite Hr, Sz; lia).
  rewrite !lead_ok by (auto; lia). cbn [obind]. unfold b_mask_where. cbn [unsqueeze tshape]. rewrite !app_length, !repeat_length.
  replace (Nat.eqb _ _) with true by (symmetry; apply Nat.eqb_eq; lia).
  replace (Nat.eqb (N.to_nat rank - length (tshape c) + length (tshape c)) _) with true by (symmetry; apply Nat.eqb_eq; lia).
  cbn [andb]. rewrite (bshape_pad _ _ s1) by (auto; lia). cbn [obind].
  rewrite (bshape_pad _ _ s) by (auto; lia). cbn [obind].
  replace (_ + length s1 - length s)%nat with O by lia. cbn [repeat app].
  rewrite <- H. apply tab_ext. intros idx Hv. apply valid_length in Hv. rewrite !bproj_unsqueeze by lia.
  change (mkT (repeat 1 ?k ++ tshape ?t) (tdata ?t)) with (unsqueeze k t).
  fold (unsqueeze (N.to_nat rank - length (tshape c)) c). fold (unsqueeze (N.to_nat rank - length (tshape x)) x). fold (unsqueeze (N.to_nat rank - length (tshape y)) y).
  rewrite !get_unsqueeze. destruct (get c _) as [[| [|] |]|]; reflexivity.
Qed.

(** ** Slice *)
Definition range_for (c : cut) : brange :=
  mkRange (c_start c) (if (c_stop c =? 9223372036854775807)%Z then None else Some (c_stop c)) (c_step c).
Lemma sorted_upto (f : N -> N) n : (forall i j, i < j -> f i < f j) -> StronglySorted N.lt (map f (upto n)).
Proof.
  intros Hf. unfold upto. rewrite map_map. generalize (N.to_nat n), 0%nat. clear n. intros n. induction n as [|n IH]; intros s; cbn; constructor; [apply IH|].
  rewrite Forall_forall. intros y Hy. apply in_map_iff in Hy as (k & <- & Hk). apply in_seq in Hk. apply Hf. lia.
Qed.
Lemma div_up_gt n k q : 0 < k -> q * k < n -> q < (n + (k - 1)) / k.
Proof. intros Hk H. assert (q + 1 <= (n + (k - 1)) / k) by (apply N.div_le_lower_bound; lia). lia. Qed.
Lemma in_range_ok d c : (0 < c_step c)%Z -> (Z.of_N d <= 9223372036854775807)%Z ->
  (clamp 0 (Z.of_N d) (from_end (Z.of_N d) (c_start c)) < clamp 0 (Z.of_N d) (from_end (Z.of_N d) (c_stop c)))%Z ->
  in_range d (Some (range_for c)) = Some (kept d (Some c)).
Proof.
  intros Hs Hd Hlt. unfold in_range, range_for. cbn [r_start r_end r_step].
  set (A := clamp 0 (Z.of_N d) (from_end (Z.of_N d) (c_start c))) in *. set (B := clamp 0 (Z.of_N d) (from_end (Z.of_N d) (c_stop c))) in *.
  assert (Ba : (0 <= A <= Z.of_N d)%Z) by (unfold A, clamp; lia). assert (Bb : (0 <= B <= Z.of_N d)%Z) by (unfold B, clamp; lia).
  assert (EA : bound d (c_start c) = Z.to_N A) by reflexivity.
  assert (EB' : match (if (c_stop c =? 9223372036854775807)%Z then None else Some (c_stop c)) with Some e => bound d e | None => d end = Z.to_N B).
  { destruct (Z.eqb_spec (c_stop c) 9223372036854775807) as [E|E]; [|reflexivity]. unfold B. rewrite E. unfold clamp, from_end. cbn [Z.ltb Z.compare]. lia. }
  cbv zeta. rewrite EA, EB'. replace (c_step c <? 1)%Z with false by lia. replace (Z.to_N B <=? Z.to_N A) with false by lia. cbn [orb]. f_equal.
  unfold kept. replace (0 <? c_step c)%Z with true by lia.
  set (k := Z.to_N (c_step c)). assert (Hk : 0 < k) by lia.
  apply (Fold_Proofs.sorted_ext N.lt); [intros x; lia|intros x y z; lia| | |].
  - apply sorted_upto. intros i j Hij. nia.
  - apply Fold_Proofs.sorted_filter. rewrite <- (map_id (upto d)). apply sorted_upto. auto.
  - intros i. rewrite in_map_iff, filter_In, upto_In. unfold taken. replace (0 <? c_step c)%Z with true by lia. cbv zeta. fold A B. split.
    + intros (q & <- & Hq). apply upto_In in Hq.
      assert (Hq' : q * k < Z.to_N B - Z.to_N A).
      { pose proof (N.mul_div_le (Z.to_N B - Z.to_N A + (k - 1)) k ltac:(lia)) as Hm.
        set (Q := (Z.to_N B - Z.to_N A + (k - 1)) / k) in *. assert ((q + 1) * k <= Q * k) by (apply N.mul_le_mono_r; lia). lia. }
      split; [lia|]. replace (_ - A)%Z with (Z.of_N q * c_step c)%Z by lia. rewrite Z.mod_mul by lia. lia.
    + intros [Hi Ht]. apply andb_prop in Ht as [Ht Hm]. apply andb_prop in Ht as [H1 H2]. apply Z.eqb_eq in Hm.
      assert (Hdiv : (Z.of_N i - A = c_step c * ((Z.of_N i - A) / c_step c))%Z) by (pose proof (Z.div_mod (Z.of_N i - A) (c_step c) ltac:(lia)); lia).
      set (q := ((Z.of_N i - A) / c_step c)%Z) in *. assert (Hq0 : (0 <= q)%Z) by (apply Z.div_pos; lia).
      assert (Hqk : Z.of_N (Z.to_N q * k) = (Z.of_N i - A)%Z) by (unfold k; rewrite N2Z.inj_mul, !Z2N.id; lia).
      exists (Z.to_N q). split; [lia|]. apply upto_In. apply div_up_gt; lia.
Qed.

Lemma set_ranges_ok r : (Z.of_nat r <= 9223372036854775807)%Z -> forall axes starts ends steps cuts rs, cuts_of axes starts ends steps = Some cuts ->
  length rs = r -> valid_axes r (map c_axis cuts) -> Forall (fun c => c_stop c <= i32_max \/ c_stop c = i64_max)%Z cuts ->
  exists rs', set_ranges (N.of_nat r) (map (fun a => if (a <? 0)%Z then (a + Z.of_nat r)%Z else a) axes) starts ends steps rs = Some rs' /\ length rs' = r /\
    forall k, (k < r)%nat -> nth_error rs' k = match cut_at r cuts k with Some c => Some (Some (range_for c)) | None => nth_error rs k end.
Proof.
  intros Hr. induction axes as [|a axes IH]; intros [|s starts] [|e ends] [|st steps] cuts rs H Hl [Hv Hn] F; try discriminate H; cbn [cuts_of] in H.
  - injection H as <-. exists rs. split; [reflexivity|]. split; [exact Hl|reflexivity].
  - destruct (cuts_of axes starts ends steps) as [cs|] eqn:Ec; [|discriminate H]. injection H as <-.
    cbn [map set_ranges c_axis] in *. inversion F as [|? ? Fc Ft]; subst x l. cbn [c_stop] in Fc.
    specialize (Hv a (or_introl eq_refl)) as Ha. inversion Hn as [|? ? Hna Hnt]; subst x l.
    assert (Hu : to_usize (if (a <? 0)%Z then (a + Z.of_nat r)%Z else a) = N.of_nat (position r a)).
    { unfold position. destruct (Z.ltb_spec a 0); rewrite to_usize_to_N by lia.
      - rewrite <- (Z.mod_add a 1 (Z.of_nat r)) by lia. rewrite Z.mul_1_l, Z.mod_small by lia. lia.
      - rewrite Z.mod_small by lia. lia. }
    rewrite Hu. pose proof (position_lt r a ltac:(lia)) as Hp. replace (N.of_nat (position r a) <? N.of_nat r) with true by lia.
    assert (Hro : range_of s e st = Some (range_for (mkCut a s e st))).
    { unfold range_of, range_for, i64_max, i32_max in *. cbn. destruct (Z.eqb_spec e 9223372036854775807); [reflexivity|].
      replace (2147483647 <? e)%Z with false by lia. reflexivity. }
    rewrite Hro. cbn [obind]. rewrite Nat2N.id.
    destruct (IH starts ends steps cs (set_nth rs (position r a) (Some (range_for (mkCut a s e st)))) Ec) as (rs' & E & L & G).
    + rewrite set_nth_length. exact Hl.
    + split; [intros b Hb; apply Hv; right; exact Hb|exact Hnt].
    + exact Ft.
    + exists rs'. split; [exact E|]. split; [exact L|]. intros k Hk. rewrite (G k Hk), set_nth_nth. unfold cut_at. cbn [find c_axis].
      destruct (Nat.eqb_spec (position r a) k) as [Hpk|Hne].
      * rewrite Hpk, Nat.eqb_refl. destruct (find _ cs) as [c|] eqn:Ef.
        -- exfalso. apply find_some in Ef as [Hc Ec']. apply Nat.eqb_eq in Ec'. apply Hna. rewrite in_map_iff. exists (c_axis c). split; [congruence|]. apply in_map. exact Hc.
        -- destruct (nth_error rs k) eqn:En; [reflexivity|]. apply nth_error_None in En. lia.
      * rewrite (proj2 (Nat.eqb_neq k (position r a))) by congruence. reflexivity.
Qed.
Lemma mapo_nth_default ks : forall idx idx', mapo (fun li : list N * N => nth_error (fst li) (N.to_nat (snd li))) (combine ks idx) = Some idx' ->
  map (fun li => nth (N.to_nat (snd li)) (fst li) 0) (combine ks idx) = idx'.
Proof.
  intros idx. induction (combine ks idx) as [|[l i] r IH]; intros idx' H; cbn [mapo map fst snd] in *; [congruence|].
  destruct (nth_error l (N.to_nat i)) as [v|] eqn:E; [|discriminate H]. destruct (mapo _ r) as [r'|]; [|discriminate H]. injection H as <-.
  rewrite (IH _ eq_refl). f_equal. apply nth_error_nth. exact E.
Qed.
Lemma b_slice_ok rs cuts x z : length rs = length (tshape x) ->
  (forall k, (k < length (tshape x))%nat -> nth_error rs k = match cut_at (length (tshape x)) cuts k with Some c => Some (Some (range_for c)) | None => Some None end) ->
  (forall c, In c cuts -> let d := nth (position (length (tshape x)) (c_axis c)) (tshape x) 0 in
     in_range d (Some (range_for c)) = Some (kept d (Some c))) ->
  onnx_slice cuts x = Some z -> b_slice rs x = Some z.
Proof.
  intros Hl Hrs Hc H. unfold b_slice. rewrite Hl, Nat.eqb_refl. unfold onnx_slice in H. cbv zeta in H.
  set (r := length (tshape x)) in *. set (ks := map _ (combine (seq 0 r) (tshape x))) in *.
  assert (E : mapo (fun dr => in_range (fst dr) (snd dr)) (combine (tshape x) rs) = Some ks).
  { assert (Hgen : forall s q i, (forall k d, nth_error s k = Some d -> nth_error (tshape x) (i + k) = Some d) -> length q = length s ->
      (forall k, (k < length s)%nat -> nth_error q k = match cut_at r cuts (i + k) with Some c => Some (Some (range_for c)) | None => Some None end) ->
      mapo (fun dr => in_range (fst dr) (snd dr)) (combine s q) = Some (map (fun kd => kept (snd kd) (cut_at r cuts (fst kd))) (combine (seq i (length s)) s))).
    { induction s as [|d s IH]; intros [|o q] i Hs Hq Hk; cbn [length] in Hq; try discriminate; [reflexivity|].
      cbn [combine length seq mapo map fst snd]. rewrite (IH q (S i)).
      - specialize (Hk 0%nat ltac:(cbn; lia)). rewrite Nat.add_0_r in Hk. cbn [nth_error] in Hk.
        specialize (Hs 0%nat d eq_refl). rewrite Nat.add_0_r in Hs.
        destruct (cut_at r cuts i) as [c|] eqn:Ec; injection Hk as ->.
        + unfold cut_at in Ec. apply find_some in Ec as [Hin Hp]. apply Nat.eqb_eq in Hp. specialize (Hc c Hin). cbv zeta in Hc. rewrite Hp, (nth_error_nth _ _ _ Hs) in Hc. rewrite Hc. reflexivity.
        + reflexivity.
      - intros k d' E. specialize (Hs (S k) d' E). rewrite <- Nat.add_succ_comm in Hs. exact Hs.
      - lia.
      - intros k Hlt. specialize (Hk (S k) ltac:(cbn; lia)). rewrite <- Nat.add_succ_comm in Hk. exact Hk. }
    apply (Hgen (tshape x) rs 0%nat); [auto|exact Hl|exact Hrs]. }
  rewrite E. cbn [obind]. revert H. apply tab_mono. intros idx v _ Hv. destruct (mapo _ (combine ks idx)) as [idx'|] eqn:Em; [|discriminate Hv].
  rewrite (mapo_nth_default _ _ _ Em). exact Hv.
Qed.

(** ** Gather *)
Lemma axis_split (s : list N) a : (a < length s)%nat -> s = firstn a s ++ nth a s 0 :: skipn (S a) s.
Proof. intros H. symmetry. apply put_back. apply nth_error_nth'. exact H. Qed.
Lemma valid_middle P K S idx : valid_idx (P ++ K ++ S) idx -> exists p k q, idx = p ++ k ++ q /\ valid_idx P p /\ valid_idx K k /\ valid_idx S q.
Proof.
  intros H. apply valid_split in H. destruct H as [H1 H2]. apply valid_split in H2. destruct H2 as [H2 H3].
  exists (firstn (length P) idx), (firstn (length K) (skipn (length P) idx)), (skipn (length K) (skipn (length P) idx)).
  rewrite !firstn_skipn. auto.
Qed.
Lemma regroup_middle (y z : tensor elt) P K S n : twf y -> twf z -> tshape y = P ++ n :: S -> tshape z = P ++ K ++ S -> prodN K = n ->
  (forall p k q, valid_idx P p -> valid_idx K k -> valid_idx S q -> get y (p ++ offset K k :: q) = get z (p ++ k ++ q)) ->
  mkT (P ++ K ++ S) (tdata y) = z.
Proof.
  intros Wy Wz Sy Sz Hn H. apply tensor_ext; [|exact Wz|cbn; congruence|].
  - unfold twf in *. cbn [tshape tdata]. rewrite Wy, Sy, !prodN_app. cbn [prodN]. f_equal. subst n. ring.
  - cbn [tshape]. intros idx Hv. apply valid_middle in Hv as (p & k & q & -> & Hp & Hk & Hq). rewrite <- H by assumption.
    unfold get. cbn [tshape tdata]. rewrite Sy. f_equal. f_equal.
    pose proof (valid_length _ _ Hp). pose proof (valid_length _ _ Hk).
    rewrite !offset_app by assumption. cbn [offset prodN]. rewrite prodN_app. subst n. ring.
Qed.
Lemma firstn_mid (p k q : list N) a : length p = a -> firstn a (p ++ k ++ q) = p.
Proof. apply firstn_app_exact'. Qed.
Lemma skipn_mid (p k q : list N) a : length p = a -> skipn a (p ++ k ++ q) = k ++ q.
Proof. apply skipn_app_exact'. Qed.
Lemma skipn_mid2 (p k q : list N) a b : length p = a -> length k = b -> skipn (a + b) (p ++ k ++ q) = q.
Proof. intros Hp Hk. rewrite app_assoc. apply skipn_app_exact'. rewrite app_length. lia. Qed.
Lemma nth_mid (p q : list N) k a : length p = a -> nth a (p ++ k :: q) 0 = k.
Proof. intros <-. rewrite app_nth2, Nat.sub_diag by lia. reflexivity. Qed.
Lemma skipn_mid1 (p q : list N) k a : length p = a -> skipn (S a) (p ++ k :: q) = q.
Proof. intros Hp. rewrite <- Nat.add_1_r. exact (skipn_mid2 p [k] q a 1 Hp eq_refl). Qed.
Lemma one_middle (P S : list N) j : forall idx n, valid_idx (P ++ n :: S) idx -> length P = j -> exists p k q, idx = p ++ k :: q /\ valid_idx P p /\ k < n /\ valid_idx S q.
Proof.
  intros idx n H Hj. change (n :: S) with ([n] ++ S) in H. apply valid_middle in H as (p & k & q & -> & Hp & Hk & Hq).
  apply valid_inv in Hk as (i & r & -> & Hi & Hr). inversion Hr; subst. exists p, i, q. auto.
Qed.
Section GatherAt.
  Variables (x ix z : tensor elt) (axis : Z).
  Let a := position (length (tshape x)) axis.
  Let P := firstn a (tshape x).
  Let S' := skipn (S a) (tshape x).
  Let d := nth a (tshape x) 0.
  Hypothesis Wx : twf x.
  Hypothesis Wi : twf ix.
  Hypothesis Hz : onnx_gather axis x ix = Some z.

  Lemma gather_axis_lt : (a < length (tshape x))%nat.
  Proof.
    unfold onnx_gather in Hz. cbv zeta in Hz. unfold axis_ok in Hz. destruct ((_ <=? axis)%Z && (axis <? _)%Z) eqn:E; [|discriminate Hz].
    apply position_lt. lia.
  Qed.
  Lemma gather_lens : length P = a /\ tshape x = P ++ d :: S'.
  Proof.
    pose proof gather_axis_lt as Ha. split; [unfold P; rewrite firstn_length; lia|]. apply axis_split. exact Ha.
  Qed.
  Lemma gather_get p k q : valid_idx P p -> valid_idx (tshape ix) k -> valid_idx S' q ->
    exists i, get ix k = Some (EI i) /\ (- Z.of_N d <= i < Z.of_N d)%Z /\
      get z (p ++ k ++ q) = get x (p ++ Z.to_N (from_end (Z.of_N d) i) :: q).
  Proof.
    intros Hp Hk Hq. destruct gather_lens as [HP Hx]. pose proof Hz as H. unfold onnx_gather in H. cbv zeta in H. destruct (axis_ok _ _); [|discriminate H].
    fold a in H. fold P S' d in H. destruct (tab_wf _ _ _ H) as [Wz Sz].
    assert (Hv : valid_idx (P ++ tshape ix ++ S') (p ++ k ++ q)) by (repeat apply valid_app; assumption).
    pose proof (valid_length _ _ Hp) as Lp. pose proof (valid_length _ _ Hk) as Lk. rewrite HP in Lp.
    pose proof (get_tab _ _ _ _ H Hv) as G. cbv beta in G. rewrite (firstn_mid p k q a Lp), (skipn_mid p k q a Lp), (firstn_app_exact' _ k q Lk), (skipn_mid2 p k q a _ Lp Lk) in G.
    destruct (get_valid z (p ++ k ++ q) Wz) as (v & Gv & _); [rewrite Sz; exact Hv|]. rewrite Gv in G |- *.
    destruct (get ix k) as [[i| |]|]; try discriminate G. exists i. split; [reflexivity|].
    destruct ((_ <=? i)%Z && (i <? _)%Z) eqn:E; [|discriminate G]. split; [lia|exact G].
  Qed.
  Lemma gather_shape : tshape z = P ++ tshape ix ++ S' /\ twf z.
  Proof.
    pose proof Hz as H. unfold onnx_gather in H. cbv zeta in H. destruct (axis_ok _ _); [|discriminate H].
    fold a in H. fold P S' d in H. destruct (tab_wf _ _ _ H). auto.
  Qed.

  Lemma select_ok is : as_ints ix = Some is -> indices_in x ix axis ->
    exists y, b_select (N.of_nat a) is x = Some y /\ tshape y = P ++ N.of_nat (length is) :: S' /\ mkT (P ++ tshape ix ++ S') (tdata y) = z.
  Proof.
    intros Hi Hin. destruct gather_lens as [HP Hx]. pose proof gather_axis_lt as Ha. unfold b_select. cbv zeta. rewrite Nat2N.id.
    replace (a <? length (tshape x))%nat with true by lia. fold P S' d.
    assert (Li : prodN (tshape ix) = N.of_nat (length is)).
    { unfold as_ints in Hi. apply mapo_length in Hi. unfold twf in Wi. lia. }
    assert (Hget : forall m i, nth_error is m = Some i -> (0 <= i < Z.of_N d)%Z).
    { intros m i Hm. apply Hin. pose proof (as_ints_nth _ _ Hi m) as E. rewrite Hm in E. destruct (nth_error (tdata ix) m) as [[w| |]|] eqn:E'; try discriminate E.
      injection E as ->. exact (nth_error_In _ _ E'). }
    match goal with |- exists y, tab ?s ?f = _ /\ _ => destruct (tab_Some s f) as [y Hy] end.
    { intros idx Hv. apply (one_middle _ _ _ _ _ Hv) in HP as Hs. destruct Hs as (p & k & q & -> & Hp & Hk & Hq).
      pose proof (valid_length _ _ Hp) as Lp. rewrite HP in Lp. rewrite (nth_mid p q k a Lp), (firstn_app_exact' a p (k :: q) Lp), (skipn_mid1 p q k a Lp).
      destruct (nth_error is (N.to_nat k)) as [i|] eqn:E; [|apply nth_error_None in E; lia].
      pose proof (Hget _ _ E) as Hi'. replace ((0 <=? i)%Z && (i <? Z.of_N d)%Z) with true by lia.
      destruct (get_valid x (p ++ Z.to_N i :: q) Wx) as (v & Gv & _); [|eauto]. rewrite Hx. apply valid_app; [exact Hp|]. apply valid_cons; [lia|exact Hq]. }
    exists y. split; [exact Hy|]. destruct (tab_wf _ _ _ Hy) as [Wy Sy]. split; [exact Sy|]. destruct gather_shape as [Sz Wz].
    apply (regroup_middle y z P (tshape ix) S' (N.of_nat (length is))); [exact Wy|exact Wz|exact Sy|exact Sz|exact Li|].
    intros p k q Hp Hk Hq. pose proof (offset_lt _ _ Hk) as Ho. rewrite Li in Ho.
    destruct (gather_get p k q Hp Hk Hq) as (i & Gi & Bi & ->).
    rewrite (get_tab _ _ _ _ Hy).
    2:{ apply valid_app; [exact Hp|]. apply valid_cons; [exact Ho|exact Hq]. }
    pose proof (valid_length _ _ Hp) as Lp. rewrite HP in Lp. cbv beta. rewrite (nth_mid p q _ a Lp), (firstn_app_exact' a p _ Lp), (skipn_mid1 p q _ a Lp).
    pose proof (as_ints_nth _ _ Hi (N.to_nat (offset (tshape ix) k))) as E. unfold get in Gi. rewrite Gi in E. rewrite E.
    pose proof (Hget _ _ E) as Hi'. replace ((0 <=? i)%Z && (i <? Z.of_N d)%Z) with true by lia. unfold from_end. replace (i <? 0)%Z with false by lia. reflexivity.
  Qed.

  Lemma take_ok is : as_ints ix = Some is -> indices_in x ix axis -> b_take (N.of_nat a) ix x = Some z.
  Proof.
    intros Hi Hin. destruct (select_ok is Hi Hin) as (y & Hy & Sy & E). unfold b_take. rewrite Hi. cbn [obind]. rewrite Hy. cbn [obind].
    rewrite Nat2N.id. fold P S'.
    assert (Wy : twf y). { unfold b_select in Hy. cbv zeta in Hy. destruct (_ <? _)%nat in Hy; [|discriminate Hy]. apply (tab_wf _ _ _ Hy). }
    rewrite b_reshape_ok; [f_equal; exact E|exact Wy|]. rewrite Sy, !prodN_app. cbn [prodN].
    unfold as_ints in Hi. apply mapo_length in Hi. unfold twf in Wi. replace (N.of_nat (length is)) with (prodN (tshape ix)) by lia. reflexivity.
  Qed.

  Lemma place_ok i : ix = mkT [] [EI i] -> (- Z.of_N d <= i < Z.of_N d)%Z ->
    obind (b_slice (map (fun k => if N.eqb k (N.of_nat a) then Some (one_place i) else None) (upto (N.of_nat (length (tshape x))))) x)
          (b_squeeze_dims (N.of_nat (length (tshape x)) - 1) [Z.of_N (N.of_nat a)]) = Some z.
  Proof.
    intros Hi Hr. destruct gather_lens as [HP Hx]. pose proof gather_axis_lt as Ha. destruct gather_shape as [Sz Wz].
    pose proof (fun p q Hp Hq => gather_get p [] q Hp ltac:(rewrite Hi; constructor) Hq) as G.
    rewrite Hi in Sz. cbn [tshape app] in Sz.
    set (u := Z.to_N (from_end (Z.of_N d) i)).
    assert (Hu : u < d) by (unfold u, from_end; destruct (Z.ltb_spec i 0); lia).
    assert (Hin : in_range d (Some (one_place i)) = Some [u]).
    { unfold in_range, one_place. cbn [r_start r_end r_step]. cbv zeta.
      assert (E1 : bound d i = u) by (unfold bound, u, from_end; destruct (Z.ltb_spec i 0); lia).
      assert (E2 : match (if (i =? -1)%Z then None else Some (i + 1)%Z) with Some e => bound d e | None => d end = u + 1).
      { unfold u, from_end. destruct (Z.eqb_spec i (-1)) as [E|E]; [rewrite E; cbn [Z.ltb Z.compare]; lia|].
        unfold bound. destruct (Z.ltb_spec i 0), (Z.ltb_spec (i + 1) 0); lia. }
      rewrite E1, E2. change (1 <? 1)%Z with false. replace (u + 1 <=? u) with false by lia. cbn [orb].
      replace (u + 1 - u + (Z.to_N 1 - 1)) with 1 by lia. change (1 / Z.to_N 1) with 1. change (upto 1) with [0]. cbn [map]. do 2 f_equal. lia. }
    set (rs := map _ (upto _)).
    assert (Hrs : length rs = length (tshape x)) by (unfold rs; rewrite map_length, upto_length; lia).
    set (ks := map upto P ++ [u] :: map upto S').
    assert (Hm : mapo (fun dr => in_range (fst dr) (snd dr)) (combine (tshape x) rs) = Some ks).
    { assert (Ers : rs = repeat None a ++ Some (one_place i) :: repeat None (length S')).
      { apply nth_error_ext. intros k. unfold rs. destruct (Nat.lt_ge_cases k (length (tshape x))) as [Hk|Hk].
        - erewrite map_nth_error by (apply upto_nth; lia). destruct (N.eqb_spec (N.of_nat k) (N.of_nat a)) as [E|E].
          + replace k with a by lia. rewrite nth_error_app2; rewrite repeat_length; [|lia]. rewrite Nat.sub_diag. reflexivity.
          + destruct (Nat.lt_ge_cases k a).
            * rewrite nth_error_app1 by (rewrite repeat_length; lia). rewrite nth_error_repeat by lia. reflexivity.
            * rewrite nth_error_app2 by (rewrite repeat_length; lia). rewrite repeat_length. destruct (k - a)%nat as [|m] eqn:Em; [lia|]. cbn [nth_error].
              rewrite nth_error_repeat; [reflexivity|]. unfold S'. rewrite skipn_length. lia.
        - rewrite !(proj2 (nth_error_None _ _)); [reflexivity| |rewrite map_length, upto_length; lia].
          rewrite app_length. cbn [length]. rewrite !repeat_length. unfold S'. rewrite skipn_length. lia. }
      assert (Hall : forall l, mapo (fun dr => in_range (fst dr) (snd dr)) (combine l (repeat None (length l))) = Some (map upto l)).
      { induction l as [|v l IH]; cbn [length repeat combine mapo map fst snd]; [reflexivity|]. rewrite IH. reflexivity. }
      rewrite Ers, Hx, <- HP, combine_app' by (rewrite repeat_length; reflexivity). cbn [combine]. rewrite mapo_app. rewrite Hall. cbn [mapo fst snd].
      rewrite Hin, Hall. reflexivity. }
    assert (Hb : exists y, b_slice rs x = Some y /\ twf y /\ tshape y = P ++ 1 :: S' /\ forall p q, valid_idx P p -> valid_idx S' q -> get y (p ++ 0 :: q) = get x (p ++ u :: q)).
    { unfold b_slice. rewrite Hrs, Nat.eqb_refl, Hm. cbn [obind].
      assert (Hks : map (fun l => N.of_nat (length l)) ks = P ++ 1 :: S').
      { unfold ks. rewrite map_app, map_map. cbn [map length]. rewrite map_map. f_equal; [|f_equal]; rewrite <- (map_id _) at 2 || idtac; (etransitivity; [|apply map_id]); apply map_ext; intros v; rewrite upto_length; lia. }
      rewrite Hks.
      assert (Hidx : forall p k q, valid_idx P p -> k < 1 -> valid_idx S' q -> map (fun li => nth (N.to_nat (snd li)) (fst li) 0) (combine ks (p ++ k :: q)) = p ++ u :: q).
      { intros p k q Hp Hk Hq. assert (Hup : forall s r, valid_idx s r -> map (fun li => nth (N.to_nat (snd li)) (fst li) 0) (combine (map upto s) r) = r).
        { intros s r H. induction H as [|v w s' r' Hvw H IH]; cbn [map combine fst snd]; [reflexivity|]. rewrite IH. f_equal.
          rewrite (nth_error_nth _ _ 0 (upto_nth w (N.to_nat v) ltac:(lia))). lia. }
        unfold ks. rewrite combine_app' by (rewrite map_length, (valid_length _ _ Hp); reflexivity). cbn [combine]. rewrite map_app. cbn [map fst snd].
        rewrite !Hup by assumption. replace k with 0 by lia. reflexivity. }
      match goal with |- exists y, tab ?s ?f = _ /\ _ => destruct (tab_Some s f) as [y Hy] end.
      { intros idx Hv. apply (one_middle _ _ _ _ _ Hv) in HP as Hs. destruct Hs as (p & k & q & -> & Hp & Hk & Hq). rewrite Hidx by assumption.
        destruct (get_valid x (p ++ u :: q) Wx) as (v & Gv & _); [|eauto]. rewrite Hx. apply valid_app; [exact Hp|]. apply valid_cons; [lia|exact Hq]. }
      exists y. split; [exact Hy|]. destruct (tab_wf _ _ _ Hy) as [Wy Sy]. split; [exact Wy|]. split; [exact Sy|].
      intros p q Hp Hq. rewrite (get_tab _ _ _ _ Hy) by (apply valid_app; [exact Hp|]; apply valid_cons; [lia|exact Hq]). rewrite Hidx by (auto; lia). reflexivity. }
    destruct Hb as (y & -> & Wy & Sy & Gy). cbn [obind].
    assert (Hlen : N.of_nat (length (tshape x)) - 1 = N.of_nat (length (P ++ S'))).
    { rewrite Hx, !app_length. cbn [length]. lia. }
    rewrite Hlen, nat_N_Z.
    rewrite (b_squeeze_ok [Z.of_nat a] (P ++ S') y Wy); [|discriminate|].
    - f_equal. change (P ++ S') with (P ++ [] ++ S'). apply (regroup_middle y z P [] S' 1 Wy Wz Sy Sz eq_refl).
      intros p k q Hp Hk Hq. inversion Hk; subst k. cbn [offset app]. rewrite Gy by assumption.
      destruct (G p q Hp Hq) as (j & Gj & _ & Ej). rewrite Hi in Gj. cbn in Gj. injection Gj as <-. symmetry. exact Ej.
    - rewrite Sy.
      assert (Hpos : forall k, named (length (P ++ 1 :: S')) [Z.of_nat a] k <-> k = a).
      { intros k. unfold named, position. rewrite app_length. cbn [length]. split.
        - intros (b & [<-|[]] & <-). rewrite Z.mod_small by lia. lia.
        - intros ->. exists (Z.of_nat a). split; [left; reflexivity|]. rewrite Z.mod_small by lia. lia. }
      split; [split|split].
      + intros b [<-|[]]. rewrite app_length. cbn [length]. lia.
      + cbn [map]. constructor; [intros []|constructor].
      + intros k v Hk E. apply Hpos in Hk. subst k. rewrite nth_error_app2 in E by lia. rewrite HP, Nat.sub_diag in E. cbn in E. congruence.
      + assert (Hdel : forall l r k, (k + length l = a)%nat -> deleted (named (length (P ++ 1 :: S')) [Z.of_nat a]) k (l ++ 1 :: r) (l ++ r)).
        { induction l as [|v l IH]; intros r k Hk; cbn [app length] in *.
          - apply del_drop; [apply Hpos; lia|]. assert (Hge : (a < S k)%nat) by lia. clear Hk. revert k Hge. induction r as [|v r IH]; intros k Hge; [constructor|].
            apply del_keep; [intros Hc; apply Hpos in Hc; lia|]. apply IH. lia.
          - apply del_keep; [intros Hc; apply Hpos in Hc; lia|]. apply IH. lia. }
        apply Hdel. lia.
  Qed.
End GatherAt.

(** ** CumSum *)
Lemma mapo_firstn {A B} (f : A -> option B) : forall l r j, mapo f l = Some r -> mapo f (firstn j l) = Some (firstn j r).
Proof.
  induction l as [|x l IH]; intros r j H; cbn [mapo] in H; [injection H as <-; rewrite !firstn_nil; reflexivity|].
  destruct (f x) as [y|] eqn:Ex; [|discriminate H]. destruct (mapo f l) as [r'|]; [|discriminate H]. injection H as <-.
  destruct j as [|j]; cbn [firstn mapo]; [reflexivity|]. rewrite Ex, (IH r' j eq_refl). reflexivity.
Qed.
Lemma firstn_upto j n : j <= n -> firstn (N.to_nat j) (upto n) = upto j.
Proof.
  intros H. unfold upto. rewrite firstn_map. f_equal. replace (N.to_nat n) with (N.to_nat j + (N.to_nat n - N.to_nat j))%nat by lia.
  rewrite seq_app. apply firstn_app_exact'. apply seq_length.
Qed.
Lemma upto_S n : upto (n + 1) = upto n ++ [n].
Proof.
  unfold upto. replace (N.to_nat (n + 1)) with (S (N.to_nat n)) by lia. rewrite seq_S, map_app. cbn. rewrite N2Nat.id. reflexivity.
Qed.
Lemma filter_true {A} (f : A -> bool) l : (forall x, In x l -> f x = true) -> filter f l = l.
Proof. induction l as [|x l IH]; intros H; cbn; [reflexivity|]. rewrite (H x (or_introl eq_refl)), IH; [reflexivity|]. intros; apply H; right; assumption. Qed.
Lemma filter_before n j : j <= n -> filter (fun k => k <? j) (upto n) = upto j.
Proof.
  intros H. replace n with (j + (n - j)) by lia. generalize (n - j). clear H. intros m. induction m as [|m IH] using N.peano_ind.
  - rewrite N.add_0_r. apply filter_true. intros x Hx. apply upto_In in Hx. lia.
  - replace (j + N.succ m) with (j + m + 1) by lia. rewrite upto_S, filter_app, IH. cbn. replace (j + m <? j) with false by lia. apply app_nil_r.
Qed.
Lemma zsum_cons z l : zsum (z :: l) = (z + zsum l)%Z. Proof. reflexivity. Qed.
Lemma running_ok d : forall l acc, (forall j, (1 <= j <= length l)%nat -> BinOps_Spec.fits d (EI (acc + zsum (firstn j l))) = true) -> running d acc l = Some (acc + zsum l)%Z.
Proof.
  induction l as [|z l IH]; intros acc H; cbn [running].
  - change (zsum []) with 0%Z. f_equal. lia.
  - rewrite zsum_cons. pose proof (H 1%nat ltac:(cbn; lia)) as H1. cbn [firstn] in H1. rewrite zsum_cons in H1. change (zsum []) with 0%Z in H1. rewrite Z.add_0_r in H1. rewrite H1.
    rewrite IH; [f_equal; lia|]. intros j Hj. specialize (H (S j) ltac:(cbn; lia)). cbn [firstn] in H. rewrite zsum_cons in H.
    rewrite <- Z.add_assoc. exact H.
Qed.
Lemma zsum_app l l' : zsum (l ++ l') = (zsum l + zsum l')%Z.
Proof. induction l as [|z l IH]; cbn [app]; [reflexivity|]. rewrite !zsum_cons, IH. lia. Qed.
Lemma zsum_rev l : zsum (rev l) = zsum l.
Proof. induction l as [|z l IH]; cbn [rev]; [reflexivity|]. rewrite zsum_app, IH, !zsum_cons. change (zsum []) with 0%Z. lia. Qed.

Section CumSum.
  Variables (d : dtype) (axis : Z).
  Section One.
  Variable x : tensor elt.
  Let a := position (length (tshape x)) axis.
  Let P := firstn a (tshape x).
  Let S' := skipn (S a) (tshape x).
  Let n := nth a (tshape x) 0.
  Hypothesis Hax : axis_ok (length (tshape x)) axis = true.

  Lemma cum_axis_lt : (a < length (tshape x))%nat.
  Proof. unfold axis_ok in Hax. apply position_lt. lia. Qed.
  Lemma cum_lens : length P = a /\ tshape x = P ++ n :: S'.
  Proof. pose proof cum_axis_lt as Ha. split; [unfold P; rewrite firstn_length; lia|]. apply axis_split. exact Ha. Qed.
  Lemma cum_valid p k q : valid_idx P p -> k < n -> valid_idx S' q -> valid_idx (tshape x) (p ++ k :: q).
  Proof. intros. rewrite (proj2 cum_lens). apply valid_app; [assumption|]. apply valid_cons; assumption. Qed.
  Lemma cum_inv idx : valid_idx (tshape x) idx -> exists p k q, idx = p ++ k :: q /\ valid_idx P p /\ k < n /\ valid_idx S' q.
  Proof. intros H. destruct cum_lens as [HP E]. rewrite E in H. exact (one_middle _ _ _ _ _ H HP). Qed.
  Lemma at_mid p k k' q : valid_idx P p -> at_axis a k (p ++ k' :: q) = p ++ k :: q.
  Proof.
    intros Hp. pose proof (valid_length _ _ Hp) as Lp. rewrite (proj1 cum_lens) in Lp. unfold at_axis.
    rewrite (firstn_app_exact' a p _ Lp), (skipn_mid1 p q k' a Lp). reflexivity.
  Qed.
  Lemma nth_p p k q : valid_idx P p -> nth a (p ++ k :: q) 0 = k.
  Proof. intros Hp. pose proof (valid_length _ _ Hp) as Lp. rewrite (proj1 cum_lens) in Lp. apply nth_mid. exact Lp. Qed.
  Lemma first_p p k q : valid_idx P p -> firstn a (p ++ k :: q) = p.
  Proof. intros Hp. pose proof (valid_length _ _ Hp) as Lp. rewrite (proj1 cum_lens) in Lp. apply firstn_app_exact'. exact Lp. Qed.
  Lemma skip_p p k q : valid_idx P p -> skipn (S a) (p ++ k :: q) = q.
  Proof. intros Hp. pose proof (valid_length _ _ Hp) as Lp. rewrite (proj1 cum_lens) in Lp. apply skipn_mid1. exact Lp. Qed.
  Definition line (p q : list N) (k : N) : option Z := match get x (p ++ k :: q) with Some v => int_of v | None => None end.
  Lemma along_line p k q ks : valid_idx P p -> along a x (p ++ k :: q) ks = mapo (line p q) ks.
  Proof. intros Hp. unfold along. apply mapo_ext. intros k' _. rewrite at_mid by exact Hp. reflexivity. Qed.
  Lemma cum_get ex re z p k q : onnx_cumsum d axis ex re x = Some z -> valid_idx P p -> k < n -> valid_idx S' q ->
    exists l, mapo (line p q) (filter (summed ex re k) (upto n)) = Some l /\ BinOps_Spec.fits d (EI (zsum l)) = true /\ get z (p ++ k :: q) = Some (EI (zsum l)).
  Proof.
    intros Hz Hp Hk Hq. unfold onnx_cumsum in Hz. rewrite Hax in Hz. cbv zeta in Hz. fold a in Hz. fold n in Hz.
    destruct (tab_wf _ _ _ Hz) as [Wz Sz]. pose proof (cum_valid p k q Hp Hk Hq) as Hv.
    pose proof (get_tab _ _ _ _ Hz Hv) as G. cbv beta in G. rewrite nth_p, along_line in G by exact Hp.
    destruct (get_valid z (p ++ k :: q) Wz) as (v & Gv & _); [rewrite Sz; exact Hv|]. rewrite Gv in G |- *.
    destruct (mapo (line p q) _) as [l|]; [|discriminate G]. exists l. destruct (BinOps_Spec.fits d (EI (zsum l))) eqn:F; [|discriminate G]. auto.
  Qed.
  Lemma cum_intro ex re z : twf z -> tshape z = tshape x ->
    (forall p k q, valid_idx P p -> k < n -> valid_idx S' q ->
      exists l, mapo (line p q) (filter (summed ex re k) (upto n)) = Some l /\ BinOps_Spec.fits d (EI (zsum l)) = true /\ get z (p ++ k :: q) = Some (EI (zsum l))) ->
    onnx_cumsum d axis ex re x = Some z.
  Proof.
    intros Wz Sz H. unfold onnx_cumsum. rewrite Hax. cbv zeta. fold a n. rewrite <- (tab_get z Wz), Sz. apply tab_ext. intros idx Hv.
    apply cum_inv in Hv as (p & k & q & -> & Hp & Hk & Hq). destruct (H p k q Hp Hk Hq) as (l & E & F & G).
    rewrite nth_p, along_line, E, F, G by exact Hp. reflexivity.
  Qed.
  Lemma before_incl k : k < n -> filter (summed false false k) (upto n) = upto (k + 1).
  Proof. intros Hk. rewrite <- (filter_before n (k + 1)) by lia. apply filter_ext. intros i. unfold summed. lia. Qed.

  Lemma b_cumsum_ok z : onnx_cumsum d axis false false x = Some z -> b_cumsum d (N.of_nat a) x = Some z.
  Proof.
    intros Hz. pose proof cum_axis_lt as Ha. unfold b_cumsum. cbv zeta. rewrite Nat2N.id. replace (a <? length (tshape x))%nat with true by lia.
    pose proof Hz as Hz'. unfold onnx_cumsum in Hz'. rewrite Hax in Hz'. cbv zeta in Hz'. rewrite <- Hz'. fold a n. apply tab_ext. intros idx Hv.
    apply cum_inv in Hv as (p & k & q & -> & Hp & Hk & Hq). rewrite nth_p, first_p, skip_p, along_line by exact Hp.
    destruct (cum_get _ _ _ p k q Hz Hp Hk Hq) as (l & E & F & _). rewrite E, F. rewrite before_incl in E by exact Hk.
    assert (E' : mapo (fun k0 => match get x (p ++ k0 :: q) with Some (EI z0) => Some z0 | _ => None end) (upto (k + 1)) = Some l).
    { rewrite <- E. apply mapo_ext. intros j _. unfold line. destruct (get x _) as [[| |]|]; reflexivity. }
    rewrite E'. cbn [obind]. pose proof (mapo_length _ _ _ E) as Ll. rewrite upto_length in Ll.
    rewrite (running_ok d l 0); [reflexivity|]. intros j Hj. rewrite Z.add_0_l.
    destruct (cum_get _ _ _ p (N.of_nat (j - 1)) q Hz Hp ltac:(lia) Hq) as (l' & El & Fl & _). rewrite before_incl in El by lia.
    replace (N.of_nat (j - 1) + 1) with (N.of_nat j) in El by lia.
    pose proof (mapo_firstn _ _ _ j E) as Ej. rewrite <- (Nat2N.id j) in Ej at 1. rewrite firstn_upto in Ej by lia.
    rewrite El in Ej. injection Ej as <-. exact Fl.
  Qed.
  Lemma b_flip_ok : twf x -> exists y, b_flip (N.of_nat a) x = Some y /\ twf y /\ tshape y = tshape x /\
    forall p k q, valid_idx P p -> k < n -> valid_idx S' q -> get y (p ++ k :: q) = get x (p ++ (n - 1 - k) :: q).
  Proof.
    intros Wx. pose proof cum_axis_lt as Ha. unfold b_flip. cbv zeta. rewrite Nat2N.id. replace (a <? length (tshape x))%nat with true by lia. fold n.
    match goal with |- exists y, tab ?s ?f = _ /\ _ => destruct (tab_Some s f) as [y Hy] end.
    { intros idx Hv. apply cum_inv in Hv as (p & k & q & -> & Hp & Hk & Hq). rewrite nth_p, first_p, skip_p by exact Hp.
      destruct (get_valid x (p ++ (n - 1 - k) :: q) Wx) as (v & Gv & _); [|eauto]. apply cum_valid; auto; lia. }
    exists y. split; [exact Hy|]. destruct (tab_wf _ _ _ Hy) as [Wy Sy]. split; [exact Wy|]. split; [exact Sy|]. intros p k q Hp Hk Hq.
    rewrite (get_tab _ _ _ _ Hy (cum_valid p k q Hp Hk Hq)). rewrite nth_p, first_p, skip_p by exact Hp. reflexivity.
  Qed.
  End One.

  Lemma after_rev (f : N -> option Z) n k l : k < n -> mapo f (filter (summed false true k) (upto n)) = Some l ->
    mapo (fun i => f (n - 1 - i)) (upto (n - k)) = Some (rev l).
  Proof.
    intros Hk H. rewrite <- (mapo_map f (fun i => n - 1 - i)).
    replace (map (fun i => n - 1 - i) (upto (n - k))) with (rev (filter (summed false true k) (upto n))).
    - rewrite mapo_rev, H. reflexivity.
    - symmetry. clear H f l. assert (Hgen : forall m, m <= n -> map (fun i => n - 1 - i) (upto m) = rev (filter (fun i => n - m <=? i) (upto n))).
      { intros m. induction m as [|m IH] using N.peano_ind; intros Hm.
        - rewrite filter_none; [reflexivity|]. intros i Hi. apply upto_In in Hi. lia.
        - rewrite <- N.add_1_r, upto_S, map_app, IH by lia. cbn [map].
          replace (filter (fun i => n - (m + 1) <=? i) (upto n)) with ((n - 1 - m) :: filter (fun i => n - m <=? i) (upto n)); [reflexivity|].
          apply (Fold_Proofs.sorted_ext N.lt); [intros i; lia|intros i j h; lia| | |].
          + constructor; [apply Fold_Proofs.sorted_filter; rewrite <- (map_id (upto n)); apply sorted_upto; auto|].
            rewrite Forall_forall. intros i Hi. apply filter_In in Hi as [_ Hi]. lia.
          + apply Fold_Proofs.sorted_filter. rewrite <- (map_id (upto n)). apply sorted_upto. auto.
          + intros i. cbn [In]. rewrite !filter_In, !upto_In. lia. }
      rewrite Hgen by lia. f_equal. apply filter_ext. intros i. unfold summed. lia.
  Qed.

  Variable x : tensor elt.
  Let a := position (length (tshape x)) axis.
  Let P := firstn a (tshape x).
  Let S' := skipn (S a) (tshape x).
  Let n := nth a (tshape x) 0.
  Hypothesis Wx : twf x.
  Hypothesis Hax : axis_ok (length (tshape x)) axis = true.

  Lemma reverse_ok z : onnx_cumsum d axis false true x = Some z ->
    obind (b_flip (N.of_nat a) x) (fun y => obind (b_cumsum d (N.of_nat a) y) (b_flip (N.of_nat a))) = Some z.
  Proof.
    intros Hz. destruct (b_flip_ok x Hax Wx) as (y & Ey & Wy & Sy & Gy). fold a in Ey. rewrite Ey. cbn [obind].
    assert (Wz : twf z /\ tshape z = tshape x).
    { pose proof Hz as H. unfold onnx_cumsum in H. rewrite Hax in H. apply (tab_wf _ _ _ H). }
    destruct Wz as [Wz Sz].
    destruct (b_flip_ok z) as (w & Ew & Ww & Sw & Gw); [rewrite Sz; exact Hax|exact Wz|]. rewrite Sz in *. fold a in Ew, Gw, Gy. fold n P S' in Gw, Gy.
    assert (Hcy : onnx_cumsum d axis false false y = Some w).
    { apply (cum_intro y); [rewrite Sy; exact Hax|exact Ww|congruence|]. rewrite Sy. fold a. fold n P S'. intros p k q Hp Hk Hq.
      destruct (cum_get x Hax false true z p (n - 1 - k) q Hz Hp ltac:(fold a n; lia) Hq) as (l & El & Fl & Gl). fold a n in El.
      exists (rev l). rewrite zsum_rev. split; [|split; [exact Fl|rewrite (Gw p k q Hp Hk Hq); exact Gl]].
      apply after_rev in El; [|lia]. replace (n - (n - 1 - k)) with (k + 1) in El by lia.
      pose proof (before_incl y) as Hb. rewrite Sy in Hb. fold a n in Hb. rewrite (Hb Hax k Hk). rewrite <- El.
      apply mapo_ext. intros i Hi. apply upto_In in Hi. unfold line. rewrite (Gy p i q Hp ltac:(lia) Hq). reflexivity. }
    pose proof (b_cumsum_ok y) as Hb. rewrite Sy in Hb. fold a in Hb. rewrite (Hb Hax w Hcy). cbn [obind].
    destruct (b_flip_ok w) as (z' & Ez' & Wz' & Sz' & Gz'); [rewrite Sw; exact Hax|exact Ww|]. rewrite Sw in *. fold a in Ez', Gz'. fold n P S' in Gz'.
    rewrite Ez'. f_equal. apply tensor_ext; [exact Wz'|exact Wz|congruence|]. rewrite Sz'. intros idx Hv.
    apply (cum_inv x Hax) in Hv as (p & k & q & -> & Hp & Hk & Hq). fold a in Hk. fold n in Hk. rewrite (Gz' p k q Hp Hk Hq), (Gw p (n - 1 - k) q Hp ltac:(lia) Hq). do 3 f_equal. lia.
  Qed.
  Lemma zeros_get (t : tensor elt) idx : twf t -> valid_idx (tshape t) idx -> get (b_zeros_like t) idx = Some (EI 0).
  Proof. intros W Hv. destruct (get_valid t idx W Hv) as (v & G & _). unfold get, b_zeros_like in *. cbn [tshape tdata]. erewrite map_nth_error by exact G. reflexivity. Qed.
  Lemma zeros_wf (t : tensor elt) : twf t -> twf (b_zeros_like t).
  Proof. unfold twf, b_zeros_like. cbn. rewrite map_length. auto. Qed.
  Lemma narrow_exists (t : tensor elt) from len : twf t -> tshape t = tshape x -> len <> 0 -> from + len <= n ->
    exists y, b_narrow (N.of_nat a) from len t = Some y /\ twf y /\ tshape y = P ++ len :: S' /\
      forall p k q, valid_idx P p -> k < len -> valid_idx S' q -> get y (p ++ k :: q) = get t (p ++ (from + k) :: q).
  Proof.
    intros Wt St Hl Hf. pose proof (cum_axis_lt x Hax) as Ha. fold a in Ha. destruct (cum_lens x Hax) as [HP Hx]. fold a in HP, Hx. fold P S' n in HP, Hx.
    unfold b_narrow. cbv zeta. rewrite Nat2N.id, St. fold n P S'.
    replace ((a <? length (tshape x))%nat && (0 <? len) && (from + len <=? n)) with true by lia.
    assert (Hat : forall p k q, valid_idx P p -> firstn a (p ++ k :: q) = p /\ nth a (p ++ k :: q) 0 = k /\ skipn (S a) (p ++ k :: q) = q).
    { intros p k q Hp. pose proof (valid_length _ _ Hp) as Lp. rewrite HP in Lp. split; [apply firstn_app_exact'; exact Lp|]. split; [apply nth_mid; exact Lp|apply skipn_mid1; exact Lp]. }
    match goal with |- exists y, tab ?s ?f = _ /\ _ => destruct (tab_Some s f) as [y Hy] end.
    { intros idx Hv. apply (one_middle _ _ _ _ _ Hv) in HP as Hs. destruct Hs as (p & k & q & -> & Hp & Hk & Hq). destruct (Hat p k q Hp) as (-> & -> & ->).
      destruct (get_valid t (p ++ (from + k) :: q) Wt) as (v & Gv & _); [|eauto]. rewrite St. apply (cum_valid x Hax); auto. fold a n. lia. }
    exists y. split; [exact Hy|]. destruct (tab_wf _ _ _ Hy) as [Wy Sy]. split; [exact Wy|]. split; [exact Sy|]. intros p k q Hp Hk Hq.
    rewrite (get_tab _ _ _ _ Hy) by (apply valid_app; [exact Hp|apply valid_cons; assumption]). destruct (Hat p k q Hp) as (-> & -> & ->). reflexivity.
  Qed.
  Lemma middle_same len : forall k, k <> a -> nth_error (P ++ len :: S') k = nth_error (tshape x) k.
  Proof.
    intros k Hk. destruct (cum_lens x Hax) as [HP Hx]. fold a in HP, Hx. fold P S' n in HP, Hx. rewrite Hx.
    destruct (Nat.lt_ge_cases k a); [rewrite !nth_error_app1 by lia; reflexivity|]. rewrite !nth_error_app2 by lia.
    destruct (k - length P)%nat eqn:E; [lia|reflexivity].
  Qed.
  Lemma pair_concat l1 l2 : l1 + l2 = n -> concat_of a [P ++ l1 :: S'; P ++ l2 :: S'] (tshape x).
  Proof.
    intros Hn. pose proof (cum_axis_lt x Hax) as Ha. fold a in Ha. destruct (cum_lens x Hax) as [HP Hx]. fold a in HP, Hx. fold P S' n in HP, Hx.
    split; [discriminate|]. split; [exact Ha|]. split.
    - intros s [<-|[<-|[]]]; (split; [rewrite Hx, !app_length; reflexivity|apply middle_same]).
    - cbn [map]. rewrite !nth_mid by exact HP. unfold total. cbn [fold_right]. rewrite Hx at 1. rewrite nth_error_app2, HP, Nat.sub_diag by lia. cbn. f_equal. lia.
  Qed.

  Lemma cumsum_code_ok ex re z : (forall ex re, exists z, onnx_cumsum d axis ex re x = Some z) ->
    onnx_cumsum d axis ex re x = Some z -> cumsum_code d (N.of_nat a) ex re x = Some z.
  Proof.
    intros All Hz. unfold cumsum_code. destruct (All false re) as [s Hs].
    assert (Es : (if re then obind (b_flip (N.of_nat a) x) (fun y => obind (b_cumsum d (N.of_nat a) y) (b_flip (N.of_nat a))) else b_cumsum d (N.of_nat a) x) = Some s).
    { destruct re; [apply reverse_ok; exact Hs|apply (b_cumsum_ok x Hax); exact Hs]. }
    rewrite Es. cbn [obind]. destruct ex; [|congruence]. cbv zeta. rewrite Nat2N.id.
    assert (Ws : twf s /\ tshape s = tshape x) by (pose proof Hs as H; unfold onnx_cumsum in H; rewrite Hax in H; apply (tab_wf _ _ _ H)).
    destruct Ws as [Ws Ss]. rewrite Ss. fold n.
    assert (Wz : twf z /\ tshape z = tshape x) by (pose proof Hz as H; unfold onnx_cumsum in H; rewrite Hax in H; apply (tab_wf _ _ _ H)).
    destruct Wz as [Wz Sz].
    destruct (cum_lens x Hax) as [HP Hx]. fold a in HP, Hx. fold P S' n in HP, Hx.
    assert (Hsame : forall p k k' q, valid_idx P p -> k < n -> k' < n -> valid_idx S' q ->
              filter (summed true re k) (upto n) = filter (summed false re k') (upto n) -> get z (p ++ k :: q) = get s (p ++ k' :: q)).
    { intros p k k' q Hp Hk Hk' Hq Hf. destruct (cum_get x Hax _ _ _ p k q Hz Hp Hk Hq) as (l & E & _ & ->). destruct (cum_get x Hax _ _ _ p k' q Hs Hp Hk' Hq) as (l' & E' & _ & ->).
      fold a in E, E'. fold n in E, E'. rewrite Hf, E' in E. injection E as ->. reflexivity. }
    assert (Hzero : forall p k q, valid_idx P p -> k < n -> valid_idx S' q -> filter (summed true re k) (upto n) = [] -> get z (p ++ k :: q) = Some (EI 0)).
    { intros p k q Hp Hk Hq Hf. destruct (cum_get x Hax _ _ _ p k q Hz Hp Hk Hq) as (l & E & _ & ->). fold a in E. fold n in E. rewrite Hf in E. injection E as <-. reflexivity. }
    destruct (N.leb_spec n 1) as [Hn|Hn].
    - f_equal. apply tensor_ext; [apply zeros_wf; exact Ws|exact Wz|cbn; congruence|]. change (tshape (b_zeros_like s)) with (tshape s). intros idx Hv. rewrite zeros_get by assumption.
      rewrite Ss in Hv. apply (cum_inv x Hax) in Hv as (p & k & q & -> & Hp & Hk & Hq). fold a in Hk. fold n in Hk. symmetry. apply Hzero; auto.
      apply filter_none. intros i Hi. apply upto_In in Hi. unfold summed. destruct re; lia.
    - destruct (narrow_exists s (if re then 1 else 0) (n - 1) Ws Ss ltac:(lia) ltac:(destruct re; lia)) as (y & -> & Wy & Sy & Gy). cbn [obind].
      assert (Hzn : exists w, b_narrow (N.of_nat a) 0 1 (b_zeros_like y) = Some w /\ twf w /\ tshape w = P ++ 1 :: S' /\ forall p q, valid_idx P p -> valid_idx S' q -> get w (p ++ 0 :: q) = Some (EI 0)).
      { unfold b_narrow. cbv zeta. rewrite Nat2N.id. change (tshape (b_zeros_like y)) with (tshape y). rewrite Sy, nth_mid by exact HP.
        rewrite (firstn_app_exact' a P _ HP), (skipn_mid1 P S' _ a HP).
        replace ((a <? length (P ++ (n - 1)%N :: S'))%nat && (0 <? 1) && (0 + 1 <=? n - 1)) with true by (rewrite app_length; cbn [length]; lia).
        assert (Hat : forall p k q, valid_idx P p -> firstn a (p ++ k :: q) = p /\ nth a (p ++ k :: q) 0 = k /\ skipn (S a) (p ++ k :: q) = q).
        { intros p k q Hp. pose proof (valid_length _ _ Hp) as Lp. rewrite HP in Lp. split; [apply firstn_app_exact'; exact Lp|]. split; [apply nth_mid; exact Lp|apply skipn_mid1; exact Lp]. }
        assert (Hg : forall p k q, valid_idx P p -> k < 1 -> valid_idx S' q -> get (b_zeros_like y) (p ++ (0 + k) :: q) = Some (EI 0)).
        { intros p k q Hp Hk Hq. apply zeros_get; [exact Wy|]. rewrite Sy. apply valid_app; [exact Hp|apply valid_cons; [lia|exact Hq]]. }
        match goal with |- exists y, tab ?s ?f = _ /\ _ => destruct (tab_Some s f) as [w Hw] end.
        { intros idx Hv. apply (one_middle _ _ _ _ _ Hv) in HP as Hs'. destruct Hs' as (p & k & q & -> & Hp & Hk & Hq). destruct (Hat p k q Hp) as (-> & -> & ->). eauto. }
        exists w. split; [exact Hw|]. destruct (tab_wf _ _ _ Hw) as [Ww Sw]. split; [exact Ww|]. split; [exact Sw|]. intros p q Hp Hq.
        rewrite (get_tab _ _ _ _ Hw) by (apply valid_app; [exact Hp|apply valid_cons; [lia|exact Hq]]). destruct (Hat p 0 q Hp) as (-> & -> & ->). apply Hg; auto; lia. }
      destruct Hzn as (w & -> & Ww & Sw & Gw). cbn [obind].
      rewrite <- (tab_get z Wz), Sz.
      destruct re.
      + destruct (tab_Some (tshape x) (get z)) as [z' Hz']. { intros idx Hv. rewrite <- Sz in Hv. destruct (get_valid z idx Wz Hv) as (v & G & _). eauto. }
        rewrite Hz'. apply (b_cat_ok a _ (tshape x)); [cbn [map]; rewrite Sy, Sw; apply pair_concat; lia|]. rewrite <- Hz'. apply tab_ext. intros idx Hv.
        apply (cum_inv x Hax) in Hv as (p & k & q & -> & Hp & Hk & Hq). fold a in Hk. fold n in Hk. rewrite (nth_p x Hax) by exact Hp. fold a.
        cbn [part_at]. rewrite Sy, Sw, !nth_mid by exact HP. pose proof (first_p x Hax p k q Hp) as F1. pose proof (skip_p x Hax p k q Hp) as F2. fold a in F1, F2.
        destruct (N.ltb_spec k (n - 1)) as [Hk1|Hk1].
        * rewrite F1, F2. cbn [app]. rewrite (Gy p k q Hp Hk1 Hq). symmetry. apply Hsame; auto; [lia|]. apply filter_ext. intros i. unfold summed. lia.
        * replace (k - (n - 1) <? 1) with true by lia. rewrite F1, F2. cbn [app]. replace (k - (n - 1)) with 0 by lia. rewrite Gw by assumption. symmetry. apply Hzero; auto.
          apply filter_none. intros i Hi. apply upto_In in Hi. unfold summed. lia.
      + destruct (tab_Some (tshape x) (get z)) as [z' Hz']. { intros idx Hv. rewrite <- Sz in Hv. destruct (get_valid z idx Wz Hv) as (v & G & _). eauto. }
        rewrite Hz'. apply (b_cat_ok a _ (tshape x)); [cbn [map]; rewrite Sy, Sw; apply pair_concat; lia|]. rewrite <- Hz'. apply tab_ext. intros idx Hv.
        apply (cum_inv x Hax) in Hv as (p & k & q & -> & Hp & Hk & Hq). fold a in Hk. fold n in Hk. rewrite (nth_p x Hax) by exact Hp. fold a.
        cbn [part_at]. rewrite Sy, Sw, !nth_mid by exact HP. pose proof (first_p x Hax p k q Hp) as F1. pose proof (skip_p x Hax p k q Hp) as F2. fold a in F1, F2.
        destruct (N.ltb_spec k 1) as [Hk1|Hk1].
        * rewrite F1, F2. cbn [app]. replace k with 0 by lia. rewrite Gw by assumption. symmetry. apply Hzero; [exact Hp|lia|exact Hq|].
          apply filter_none. intros i Hi. unfold summed. lia.
        * replace (k - 1 <? n - 1) with true by lia. rewrite F1, F2. cbn [app]. rewrite (Gy p (k - 1) q Hp ltac:(lia) Hq). symmetry. apply Hsame; auto; [lia|]. apply filter_ext. intros i. unfold summed. lia.
  Qed.
End CumSum.
