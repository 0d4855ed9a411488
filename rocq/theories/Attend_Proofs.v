(** Proofs about the code emitted for Attention. *)
From Coq Require Import Lia ZifyBool ZifyNat ZifyN Lra.
From Verif Require Import ShapeOps_Model TensorRun_Model BinOps_Model Tensor_Proofs Attend_Model.
Import Attend_Spec Tensor_Spec.
Local Open Scope N_scope.

(** ** Tensors given by their elements *)
Definition build {A} (s : list N) (f : list N -> A) : tensor A := mkT s (map f (indices s)).
Definition quad {A} (b h m n : N) (f : N -> N -> N -> N -> A) : tensor A :=
  build [b; h; m; n] (fun idx => f (nth 0 idx 0) (nth 1 idx 0) (nth 2 idx 0) (nth 3 idx 0)).
Lemma mapo_const {A B} (f : A -> option B) (g : A -> B) l : (forall x, In x l -> f x = Some (g x)) -> mapo f l = Some (map g l).
Proof.
  induction l as [|a l IH]; intros H; cbn; [reflexivity|]. rewrite (H a (or_introl eq_refl)), IH; [reflexivity|].
  intros x Hx. apply H. right. exact Hx.
Qed.
Lemma tab_build {A} s (F : list N -> option A) f : (forall i, valid_idx s i -> F i = Some (f i)) -> tab s F = Some (build s f).
Proof. intros H. unfold tab. rewrite (mapo_const F f); [reflexivity|]. intros i Hi. apply H. apply indices_In. exact Hi. Qed.
Lemma get_build {A} s (f : list N -> A) i : valid_idx s i -> get (build s f) i = Some (f i).
Proof. intros V. unfold get, build. cbn [tshape tdata]. rewrite nth_error_map, (indices_offset _ _ V). reflexivity. Qed.
Lemma build_ext {A} s (f g : list N -> A) : (forall i, valid_idx s i -> f i = g i) -> build s f = build s g.
Proof. intros H. unfold build. f_equal. apply map_ext_in. intros i Hi. apply H. apply indices_In. exact Hi. Qed.
Lemma build_wf {A} s (f : list N -> A) : twf (build s f).
Proof. unfold twf, build. cbn. rewrite map_length, indices_length. reflexivity. Qed.
Lemma build_of {A} (x : tensor A) s f : twf x -> tshape x = s -> (forall i, valid_idx s i -> get x i = Some (f i)) -> x = build s f.
Proof. intros W E H. apply tensor_ext; [exact W|apply build_wf|exact E|]. rewrite E. intros i Vi. rewrite H, get_build by exact Vi. reflexivity. Qed.
Lemma valid4 a b c d i j k l : valid_idx [a; b; c; d] [i; j; k; l] <-> i < a /\ j < b /\ k < c /\ l < d.
Proof.
  split.
  - intros H. inversion H as [|? ? ? ? H1 H2]; subst. inversion H2 as [|? ? ? ? H3 H4]; subst. inversion H4 as [|? ? ? ? H5 H6]; subst. inversion H6; subst. auto.
  - intros (? & ? & ? & ?). repeat (constructor; [assumption|]). constructor.
Qed.
Lemma valid4_inv a b c d i : valid_idx [a; b; c; d] i -> exists x y z w, i = [x; y; z; w] /\ x < a /\ y < b /\ z < c /\ w < d.
Proof.
  intros H. inversion H as [|x ? ? ? H1 H2]; subst. inversion H2 as [|y ? ? ? H3 H4]; subst. inversion H4 as [|z ? ? ? H5 H6]; subst. inversion H6 as [|w ? ? ? H7 H8]; subst. inversion H8; subst.
  exists x, y, z, w. auto.
Qed.
Lemma valid3_inv a b c i : valid_idx [a; b; c] i -> exists x y z, i = [x; y; z] /\ x < a /\ y < b /\ z < c.
Proof.
  intros H. inversion H as [|x ? r1 ? Hx H1]; subst. inversion H1 as [|y ? r2 ? Hy H2]; subst. inversion H2 as [|z ? r3 ? Hz H3]; subst. inversion H3; subst.
  exists x, y, z. auto.
Qed.
Lemma tab4 {A} b h m n (F : list N -> option A) f : (forall i j r c, i < b -> j < h -> r < m -> c < n -> F [i; j; r; c] = Some (f i j r c)) -> tab [b; h; m; n] F = Some (quad b h m n f).
Proof. intros H. apply tab_build. intros i Vi. destruct (valid4_inv _ _ _ _ _ Vi) as (x & y & z & w & -> & ? & ? & ? & ?). cbn. apply H; assumption. Qed.
Lemma get4 {A} b h m n (f : N -> N -> N -> N -> A) i j r c : i < b -> j < h -> r < m -> c < n -> get (quad b h m n f) [i; j; r; c] = Some (f i j r c).
Proof. intros. unfold quad. rewrite get_build; [reflexivity|]. apply valid4. auto. Qed.
Lemma quad_ext {A} b h m n (f g : N -> N -> N -> N -> A) : (forall i j r c, i < b -> j < h -> r < m -> c < n -> f i j r c = g i j r c) -> quad b h m n f = quad b h m n g.
Proof. intros H. apply build_ext. intros i Vi. destruct (valid4_inv _ _ _ _ _ Vi) as (x & y & z & w & -> & ? & ? & ? & ?). cbn. apply H; assumption. Qed.
Lemma quad_of {A} b h m n (x : tensor A) f : twf x -> tshape x = [b; h; m; n] -> (forall i j r c, i < b -> j < h -> r < m -> c < n -> get x [i; j; r; c] = Some (f i j r c)) -> x = quad b h m n f.
Proof. intros W E H. apply build_of; [exact W|exact E|]. intros i Vi. destruct (valid4_inv _ _ _ _ _ Vi) as (x1 & y & z & w & -> & ? & ? & ? & ?). cbn. apply H; assumption. Qed.
Lemma rd4 b h m n f i j r c : i < b -> j < h -> r < m -> c < n -> rd (quad b h m n f) [i; j; r; c] = f i j r c.
Proof. intros. unfold rd. rewrite get4 by assumption. reflexivity. Qed.
Lemma ed4 b h m n f i j r c : i < b -> j < h -> r < m -> c < n -> ed (quad b h m n f) [i; j; r; c] = f i j r c.
Proof. intros. unfold ed. rewrite get4 by assumption. reflexivity. Qed.
Lemma mk4_quad b h m n f : mk4 b h m n f = quad b h m n f.
Proof. unfold mk4, mk, quad. apply (build_ext [b; h; m; n]). intros i Vi. destruct (valid4_inv _ _ _ _ _ Vi) as (x & y & z & w & -> & _). reflexivity. Qed.
Lemma rd_quad b h m n (x : rt) : twf x -> tshape x = [b; h; m; n] -> x = quad b h m n (fun i j r c => rd x [i; j; r; c]).
Proof.
  intros W E. apply quad_of; [exact W|exact E|]. intros i j r c ? ? ? ?. unfold rd. destruct (get_valid x [i; j; r; c] W) as (v & -> & _); [|reflexivity].
  rewrite E. apply valid4. auto.
Qed.
Lemma total_ext n f g : (forall i, i < n -> f i = g i) -> total n f = total n g.
Proof.
  intros H. unfold total. assert (H' : forall i, In i (upto n) -> f i = g i) by (intros i Hi; apply H; apply upto_In; exact Hi).
  induction (upto n) as [|a l IH]; cbn; [reflexivity|]. rewrite H' by (left; reflexivity). rewrite IH; [reflexivity|]. intros i Hi. apply H'. right. exact Hi.
Qed.
Lemma total_scale n f s : total n (fun i => f i * s)%R = (total n f * s)%R.
Proof. unfold total. induction (upto n) as [|a l IH]; cbn; [ring|]. rewrite IH. ring. Qed.

(** ** The operations *)
Lemma each_quad {A B} (f : A -> B) b h m n g : each f (quad b h m n g) = quad b h m n (fun i j r c => f (g i j r c)).
Proof. unfold each, quad, build. cbn [tshape tdata]. rewrite map_map. reflexivity. Qed.
Lemma get_each {A B} (f : A -> B) x i : get (each f x) i = option_map f (get x i).
Proof. unfold get, each. cbn. apply nth_error_map. Qed.
Lemma each_wf {A B} (f : A -> B) x : twf x -> twf (each f x).
Proof. unfold twf, each. cbn. rewrite map_length. auto. Qed.
Lemma permute_quad {A} b h m n (f : N -> N -> N -> N -> A) : permute0213 (quad b h m n f) = Some (quad b m h n (fun i r j c => f i j r c)).
Proof. unfold permute0213. cbn [quad build tshape]. apply tab4. intros. apply get4; assumption. Qed.
Lemma transpose_quad {A} b h m n (f : N -> N -> N -> N -> A) : transpose4 (quad b h m n f) = Some (quad b h n m (fun i j c r => f i j r c)).
Proof. unfold transpose4. cbn [quad build tshape]. apply tab4. intros. apply get4; assumption. Qed.
Lemma bdim_refl a : bdim a a = Some a.
Proof. unfold bdim. rewrite N.eqb_refl. reflexivity. Qed.
Lemma bdim_1r a : bdim a 1 = Some a.
Proof. unfold bdim. rewrite (N.eqb_refl 1). destruct (N.eqb_spec a 1); subst; reflexivity. Qed.
Lemma along_in d i : i < d -> along d i = i.
Proof. intros H. unfold along. destruct (N.eqb_spec d 1); [lia|reflexivity]. Qed.
Lemma matmul_quad b h h' m k n f g : h' = h \/ h' = 1 ->
  matmul4 (quad b h m k f) (quad b h' k n g) = Some (quad b h m n (fun i j r c => total k (fun t => f i j r t * g i (along h' j) t c)%R)).
Proof.
  intros Hh. unfold matmul4. cbn [quad build tshape]. rewrite N.eqb_refl, bdim_refl. cbn [obind].
  replace (bdim h h') with (Some h) by (destruct Hh as [-> | ->]; [rewrite bdim_refl|rewrite bdim_1r]; reflexivity). cbn [obind].
  apply tab4. intros i j r c Hi Hj Hr Hc. f_equal. apply total_ext. intros t Ht. rewrite !along_in by assumption.
  assert (along h' j < h') by (unfold along; destruct Hh as [-> | ->]; [destruct (N.eqb_spec h 1); lia|rewrite N.eqb_refl; lia]).
  change (build [b; h; m; k] (fun idx => f (nth 0 idx 0) (nth 1 idx 0) (nth 2 idx 0) (nth 3 idx 0))) with (quad b h m k f).
  change (build [b; h'; k; n] (fun idx => g (nth 0 idx 0) (nth 1 idx 0) (nth 2 idx 0) (nth 3 idx 0))) with (quad b h' k n g).
  rewrite !rd4 by assumption. reflexivity.
Qed.
Lemma matmul_none b h h' m k n f g : h' <> h -> h' <> 1 -> h <> 1 -> matmul4 (quad b h m k f) (quad b h' k n g) = None.
Proof.
  intros H1 H2 H3. unfold matmul4. cbn [quad build tshape]. rewrite N.eqb_refl, bdim_refl. cbn [obind]. unfold bdim.
  replace (h =? h') with false by lia. replace (h =? 1) with false by lia. replace (h' =? 1) with false by lia. reflexivity.
Qed.
Lemma cat_quad b h p n d f g : cat2 (quad b h p d f) (quad b h n d g) = Some (quad b h (p + n) d (fun i j c u => if c <? p then f i j c u else g i j (c - p) u)).
Proof.
  unfold cat2. cbn [quad build tshape]. rewrite !N.eqb_refl. cbn [andb]. apply tab4. intros i j c u Hi Hj Hc Hu. destruct (N.ltb_spec c p).
  - apply (get4 b h p d f); assumption.
  - apply (get4 b h n d g); try assumption. lia.
Qed.
Lemma softmax_quad b h m n f : softmax3 (quad b h m n f) = Some (quad b h m n (fun i j r c => expo (f i j r c) / total n (fun k => expo (f i j r k)))%R).
Proof.
  unfold softmax3. cbn [quad build tshape]. apply tab4. intros i j r c Hi Hj Hr Hc. f_equal.
  change (build [b; h; m; n] (fun idx => f (nth 0 idx 0) (nth 1 idx 0) (nth 2 idx 0) (nth 3 idx 0))) with (quad b h m n f).
  rewrite ed4 by assumption. apply f_equal. apply total_ext. intros t Ht. rewrite ed4 by assumption. reflexivity.
Qed.
Lemma both_quad {A B C} (op : A -> B -> C) b h m n f g : both op (quad b h m n f) (quad b h m n g) = Some (quad b h m n (fun i j r c => op (f i j r c) (g i j r c))).
Proof.
  unfold both. change (tshape (quad b h m n f)) with [b; h; m; n]. change (tshape (quad b h m n g)) with [b; h; m; n].
  destruct (list_eq_dec N.eq_dec _ _) as [_|?]; [|contradiction]. apply tab4. intros. rewrite !get4 by assumption. reflexivity.
Qed.

(** ** Heads *)
Lemma split_ok h size b l (x : rt) : twf x -> tshape x = [b; l; h * size] ->
  split_heads h size x = Some (quad b h l size (fun i j r u => rd x [i; r; j * size + u])).
Proof.
  intros W E. unfold split_heads. rewrite E. unfold b_reshape, reshape_flat. unfold twf in W. rewrite W, E, N2Nat.id. cbn [prodN].
  replace (b * (l * (h * size * 1)) =? b * (l * (h * (size * 1)))) with true by lia. cbn [obind].
  rewrite (quad_of b l h size (mkT [b; l; h; size] (tdata x)) (fun i r j u => rd x [i; r; j * size + u])); [apply permute_quad| |reflexivity|].
  - unfold twf. cbn [tshape tdata prodN]. rewrite W, E. cbn [prodN]. f_equal. lia.
  - intros i r j u Hi Hr Hj Hu. unfold rd.
    replace (get (mkT [b; l; h; size] (tdata x)) [i; r; j; u]) with (get x [i; r; j * size + u]).
    + destruct (get_valid x [i; r; j * size + u]) as (v & -> & _); [unfold twf; rewrite W; reflexivity| |reflexivity]. rewrite E. repeat (constructor; [nia|]). constructor.
    + unfold get. rewrite E. cbn [tshape tdata offset prodN]. apply f_equal, f_equal. ring.
Qed.
Lemma close_ok b h m e f : 0 < b -> 0 < m -> 0 < e ->
  reshape_rest b m (quad b m h e f) = Some (build [b; m; h * e] (fun idx => match idx with [i; r; w] => f i r (w / e) (w mod e) | _ => 0%R end)).
Proof.
  intros Hb Hm He. unfold reshape_rest. replace (b * m =? 0) with false by nia. cbn [quad build tshape prodN].
  replace (b * (m * (h * (e * 1))) / (b * m)) with (h * e) by (symmetry; rewrite <- (N.div_mul (h * e) (b * m)) by nia; f_equal; ring).
  unfold b_reshape, reshape_flat. change (build [b; m; h; e] (fun idx => f (nth 0 idx 0) (nth 1 idx 0) (nth 2 idx 0) (nth 3 idx 0))) with (quad b m h e f).
  pose proof (build_wf [b; m; h; e] (fun idx => f (nth 0 idx 0) (nth 1 idx 0) (nth 2 idx 0) (nth 3 idx 0))) as W. fold (quad b m h e f) in W.
  unfold twf in W. rewrite W. cbn [quad build tshape prodN]. rewrite N2Nat.id. replace (b * (m * (h * (e * 1))) =? b * (m * (h * e * 1))) with true by lia.
  f_equal. apply build_of; [|reflexivity|].
  - unfold twf. cbn [tshape prodN]. transitivity (length (tdata (quad b m h e f))); [reflexivity|]. rewrite W. cbn [quad build tshape prodN]. f_equal. ring.
  - intros i Vi. destruct (valid3_inv _ _ _ _ Vi) as (x & y & w & -> & Hx & Hy & Hw).
    pose proof (N.mod_lt w e ltac:(lia)). assert (w / e < h) by (apply N.div_lt_upper_bound; nia). pose proof (N.div_mod w e ltac:(lia)) as D.
    transitivity (get (quad b m h e f) [x; y; w / e; w mod e]); [|apply get4; assumption].
    unfold get, quad, build. cbn [tshape tdata offset prodN]. apply f_equal, f_equal. rewrite D at 1. ring.
Qed.

(** ** Masks *)
Lemma fits_proj s T idx : Forall2 (fun d t => d = t \/ d = 1) s T -> Forall2 (fun i t => i < t) idx T -> valid_idx s (map (fun di => if fst di =? 1 then 0 else snd di) (combine s idx)).
Proof.
  intros F. revert idx. induction F as [|d t s T Hd F IH]; intros idx V; inversion V as [|i ? r ? Hi Hr]; subst; cbn; [constructor|].
  constructor; [|apply IH; exact Hr]. cbn. destruct (N.eqb_spec d 1); lia.
Qed.
Lemma valid_skipn k s i : valid_idx s i -> valid_idx (skipn k s) (skipn k i).
Proof. intros H. revert k. induction H; intros [|k]; cbn; try constructor; auto. Qed.
Lemma proj_valid s b h m n i j r c : mask_fits s b h m n -> i < b -> j < h -> r < m -> c < n -> valid_idx s (bproj s [i; j; r; c]).
Proof.
  intros [L F] Hi Hj Hr Hc. unfold bproj. eapply fits_proj; [exact F|]. cbn [length].
  apply (valid_skipn (4 - length s) [b; h; m; n] [i; j; r; c]). apply valid4. auto.
Qed.
Lemma expand_dims s T : Forall2 (fun d t => d = t \/ d = 1) s T -> mapo (fun dv => expand_dim (fst dv) (snd dv)) (combine s (map Z.of_N T)) = Some T.
Proof.
  induction 1 as [|d t s T Hd F IH]; cbn; [reflexivity|]. rewrite IH. unfold expand_dim. cbn [fst snd].
  replace (Z.of_N t =? -1)%Z with false by lia. replace (Z.of_N t <? 0)%Z with false by lia. rewrite N2Z.id. replace ((t =? d) || (d =? 1)) with true by lia. reflexivity.
Qed.
Lemma expand_quad {A} (t : tensor A) b h m n f : twf t -> mask_fits (tshape t) b h m n ->
  (forall i j r c, i < b -> j < h -> r < m -> c < n -> get t (bproj (tshape t) [i; j; r; c]) = Some (f i j r c)) ->
  expand4 [b; h; m; n] t = Some (quad b h m n f).
Proof.
  intros W Fm H. pose proof Fm as [L F]. unfold expand4, b_expand. rewrite map_length. cbn [length].
  replace (length (tshape t) <=? 4)%nat with true by lia.
  replace (forallb (fun v => (0 <=? v)%Z) (firstn (4 - length (tshape t)) (map Z.of_N [b; h; m; n]))) with true.
  2: { symmetry. apply forallb_forall. intros v Hv. rewrite firstn_map in Hv. apply in_map_iff in Hv. destruct Hv as (w & <- & _). lia. }
  cbn [andb]. rewrite skipn_map, (expand_dims _ _ F). cbn [obind]. rewrite firstn_map, map_map.
  rewrite (map_ext _ (fun v => v)) by (intros; apply N2Z.id). rewrite map_id, firstn_skipn. apply tab4. intros i j r c Hi Hj Hr Hc. rewrite <- H by assumption.
  unfold bproj. cbn [length]. reflexivity.
Qed.
Lemma ed_get (t : tensor ext) i : twf t -> valid_idx (tshape t) i -> get t i = Some (ed t i).
Proof. intros W V. unfold ed. destruct (get_valid t i W V) as (v & -> & _). reflexivity. Qed.
Lemma expand_ed (t : tensor ext) b h m n : twf t -> mask_fits (tshape t) b h m n -> expand4 [b; h; m; n] t = Some (quad b h m n (fun i j r c => ed t (bproj (tshape t) [i; j; r; c]))).
Proof. intros W F. apply expand_quad; [exact W|exact F|]. intros. apply ed_get; [exact W|]. eapply proj_valid; eassumption. Qed.
Lemma spread_ok b h m n s : length s = 4%nat -> mask_fits s b h m n -> spread [b; h; m; n] s = true.
Proof.
  intros L [_ F]. rewrite L in F. cbn [Nat.sub skipn] in F. inversion F as [|x1 ? ? ? H1 F1]; subst. inversion F1 as [|x2 ? ? ? H2 F2]; subst.
  inversion F2 as [|x3 ? ? ? H3 F3]; subst. inversion F3 as [|x4 ? ? ? H4 F4]; subst. inversion F4; subst.
  assert (B : forall a x, x = a \/ x = 1 -> bdim a x = Some a) by (intros a x [-> | ->]; [apply bdim_refl|apply bdim_1r]).
  unfold spread, bshape. cbn [rev app brev]. rewrite !B by assumption. cbn [option_map rev app]. destruct (list_eq_dec N.eq_dec _ _); [reflexivity|contradiction].
Qed.

(** ** The three tensors *)
Lemma laid_quad four (x : rt) b h l size : laid_out four x b h l size ->
  (if four then Some x else split_heads h size x) = Some (quad b h l size (elem size x)).
Proof.
  intros [W E]. destruct four.
  - f_equal. rewrite (rd_quad b h l size x W E) at 1. apply quad_ext. intros. unfold elem. rewrite E. reflexivity.
  - rewrite (split_ok h size b l x W E). f_equal. apply quad_ext. intros. unfold elem. rewrite E. reflexivity.
Qed.
Definition heads_of (four : bool) (z : sizes) : option (N * N) := if four then None else Some (z_hq z, z_hk z).
Lemma open_ok four z x p : inputs_ok four z x -> p_heads p = heads_of four z ->
  open_heads p (x_q x) (x_k x) (x_v x) =
    Some (quad (z_b z) (z_hq z) (z_m z) (z_d z) (queries z x), quad (z_b z) (z_hk z) (z_n z) (z_d z) (elem (z_d z) (x_k x)), quad (z_b z) (z_hk z) (z_n z) (z_e z) (elem (z_e z) (x_v x))).
Proof.
  intros (Q & K & V & Hk & _ & Hq & _) Ep. pose proof (laid_quad _ _ _ _ _ _ Q) as Lq. pose proof (laid_quad _ _ _ _ _ _ K) as Lk. pose proof (laid_quad _ _ _ _ _ _ V) as Lv.
  unfold open_heads. rewrite Ep. unfold heads_of. destruct four.
  - injection Lq as Lq. injection Lk as Lk. injection Lv as Lv. rewrite Lq at 1. rewrite Lk at 1. rewrite Lv at 1. reflexivity.
  - destruct Q as [_ ->]. destruct V as [_ ->]. replace ((z_hq z =? 0) || (z_hk z =? 0)) with false by lia.
    rewrite !(N.mul_comm _ (z_d z)), !(N.mul_comm _ (z_e z)), !N.div_mul by lia. rewrite Lq, Lk, Lv. reflexivity.
Qed.
Lemma past_ok four z x p : inputs_ok four z x -> p_past p = some (x_past x) ->
  with_past p (x_past x) (quad (z_b z) (z_hk z) (z_n z) (z_d z) (elem (z_d z) (x_k x))) (quad (z_b z) (z_hk z) (z_n z) (z_e z) (elem (z_e z) (x_v x))) =
    Some (quad (z_b z) (z_hk z) (z_total z) (z_d z) (keys z x), quad (z_b z) (z_hk z) (z_total z) (z_e z) (values z x)).
Proof.
  intros (_ & _ & _ & _ & _ & _ & _ & _ & _ & _ & P & _) Ep. unfold with_past. rewrite Ep. unfold keys, values, z_total. destruct (x_past x) as [[pk pv]|]; cbn [some].
  - destruct P as [P1 P2]. pose proof (laid_quad _ _ _ _ _ _ P1) as L1. pose proof (laid_quad _ _ _ _ _ _ P2) as L2. injection L1 as L1. injection L2 as L2.
    destruct P1 as [_ E1]. destruct P2 as [_ E2]. cbn in E1, E2.
    rewrite L1 at 1. rewrite cat_quad. cbn [obind]. rewrite L2 at 1. rewrite cat_quad. cbn [obind]. f_equal. f_equal; apply quad_ext; intros i j r c Hi Hj Hr Hc; destruct (N.ltb_spec r (z_p z)); try reflexivity; unfold elem; [rewrite E1|rewrite E2]; reflexivity.
  - rewrite P, N.add_0_l. reflexivity.
Qed.
Lemma served_same z j : z_hq z = z_hk z -> 0 < z_hk z -> served z j = j.
Proof. intros E H. unfold served. rewrite E, N.div_same by lia. apply N.div_1_r. Qed.
Lemma served_one z j : z_hk z = 1 -> j < z_hq z -> served z j = 0.
Proof. intros E H. unfold served. rewrite E, N.div_1_r. apply N.div_small. exact H. Qed.
Lemma close_y four z o x p f : inputs_ok four z x -> p_heads p = heads_of four z ->
  (forall i j r t, i < z_b z -> j < z_hq z -> r < z_m z -> t < z_e z -> f i j r t = result z o x i j r t) ->
  close_heads p (x_q x) (quad (z_b z) (z_hq z) (z_m z) (z_e z) f) = Some (onnx_y z o x).
Proof.
  intros ((_ & Eq) & _ & _ & _ & _ & _ & _ & He & Hb & Hm & _) Ep H. unfold close_heads, onnx_y. rewrite Ep, Eq. unfold heads_of. destruct four.
  - f_equal. rewrite mk4_quad. apply quad_ext. exact H.
  - rewrite permute_quad. cbn [obind]. rewrite close_ok by assumption. f_equal. apply (build_ext [z_b z; z_m z; z_hq z * z_e z]). intros i Vi.
    destruct (valid3_inv _ _ _ _ Vi) as (a & r & w & -> & Ha & Hr & Hw). apply H; try assumption; [apply N.div_lt_upper_bound; nia|apply N.mod_lt; lia].
Qed.
Lemma present_ok four z x p : inputs_ok four z x -> p_past p = some (x_past x) ->
  (if p_past p then Some (quad (z_b z) (z_hk z) (z_total z) (z_d z) (keys z x), quad (z_b z) (z_hk z) (z_total z) (z_e z) (values z x)) else None) = onnx_present z x.
Proof. intros _ ->. unfold onnx_present. rewrite !mk4_quad. destruct (x_past x); reflexivity. Qed.

(** ** The mask for [attention] *)
Definition mask_ext (m : mask_in) : tensor ext :=
  match m with MBool t => each (fun v : bool => if v then Some 0%R else None) t | MFloat t => t | MInt t => each (fun v => Some (IZR v)) t end.
Lemma mask_ext_wf m : mask_wf m -> twf (mask_ext m).
Proof. destruct m; cbn; auto using each_wf. Qed.
Lemma mask_ext_shape m : tshape (mask_ext m) = mask_shape m.
Proof. destruct m; reflexivity. Qed.
Lemma mask_at_ext m idx : mask_at m idx = ed (mask_ext m) (bproj (mask_shape m) idx).
Proof. destruct m; cbn [mask_at mask_ext mask_shape]; unfold ed; rewrite ?get_each; destruct (get _ _) as [v|]; try reflexivity; destruct v; reflexivity. Qed.
Definition kind_in (m : mask_in) : mkind := match m with MBool _ => KBoolMask | MFloat _ => KFloatMask | MInt _ => KIntMask end.
Definition burn_rank (s : list N) : Prop := match s with [_; _] => True | [w; _; _] => w = 1 | [_; _; _; _] => True | _ => False end.
Lemma rank4_ok {A} (t : tensor A) b h m n : twf t -> burn_rank (tshape t) -> mask_fits (tshape t) b h m n ->
  exists u, to_rank4 (N.of_nat (length (tshape t))) t = Some u /\ length (tshape u) = 4%nat /\ mask_fits (tshape u) b h m n /\ twf u /\
    forall i j r c, i < b -> j < h -> r < m -> c < n -> get u (bproj (tshape u) [i; j; r; c]) = get t (bproj (tshape t) [i; j; r; c]).
Proof.
  intros W B [L F]. unfold to_rank4. destruct (tshape t) as [|a1 [|a2 [|a3 [|a4 [|? ?]]]]] eqn:E; try contradiction; cbn [length N.of_nat Pos.of_succ_nat Pos.succ N.eqb Pos.eqb].
  - eexists. split; [reflexivity|]. cbn [tshape length]. split; [reflexivity|]. cbn [length Nat.sub skipn] in F. split; [|split].
    + split; [cbn; lia|]. cbn [length Nat.sub skipn]. constructor; [right; reflexivity|]. constructor; [right; reflexivity|exact F].
    + unfold twf in *. cbn [tshape tdata]. rewrite W, E. cbn [prodN]. f_equal. lia.
    + intros i j r c Hi Hj Hr Hc. unfold get. rewrite E. cbn [tshape tdata bproj length Nat.sub skipn combine map fst snd offset prodN]. apply f_equal, f_equal.
      unfold bproj. cbn [length Nat.sub skipn combine map fst snd offset prodN]. rewrite (N.eqb_refl 1). lia.
  - cbn in B. subst a1. eexists. split; [reflexivity|]. cbn [tshape length]. split; [reflexivity|]. cbn [length Nat.sub skipn] in F. split; [|split].
    + split; [cbn; lia|]. cbn [length Nat.sub skipn]. constructor; [right; reflexivity|]. exact F.
    + unfold twf in *. cbn [tshape tdata]. rewrite W, E. cbn [prodN]. f_equal. lia.
    + intros i j r c Hi Hj Hr Hc. unfold get. rewrite E. cbn [tshape tdata]. apply f_equal, f_equal.
      unfold bproj. cbn [length Nat.sub skipn combine map fst snd offset prodN]. rewrite (N.eqb_refl 1). lia.
  - exists t. split; [reflexivity|]. rewrite E. split; [reflexivity|]. split; [split; [exact L|exact F]|]. split; [exact W|]. reflexivity.
Qed.
Definition plan_mask (o : att_opt) (x : att_in) : option (mkind * N) :=
  if o_causal o then None else option_map (fun m => (kind_in m, N.of_nat (length (mask_shape m)))) (x_mask x).
Lemma mask_args_ok p o x b h m n : p_mask p = plan_mask o x -> (o_causal o = true -> x_mask x = None) ->
  match x_mask x with Some mk => mask_wf mk /\ mask_fits (mask_shape mk) b h m n /\ burn_rank (mask_shape mk) | None => True end ->
  exists mb, mask_args p (x_mask x) = Some mb /\
    (match fst mb with Some t => spread [b; h; m; n] (tshape t) | None => true end) = true /\ (match snd mb with Some t => spread [b; h; m; n] (tshape t) | None => true end) = true /\
    (x_mask x = None -> mb = (None, None)) /\
    forall i j r c, i < b -> j < h -> r < m -> c < n ->
      match masked_by (fst mb) (snd mb) [i; j; r; c] with Some v => v | None => None end = match x_mask x with Some mk => mask_at mk [i; j; r; c] | None => Some 0%R end.
Proof.
  intros Ep Hc Hm. unfold mask_args. rewrite Ep. unfold plan_mask. destruct (x_mask x) as [mk|].
  - destruct (o_causal o); [discriminate (Hc eq_refl)|]. cbn [option_map]. destruct Hm as (W & F & B). destruct mk as [t|t|t]; cbn [mask_shape kind_in mask_wf] in *.
    + destruct (rank4_ok (each negb t) b h m n) as (u & Eu & L & Fu & Wu & G); [apply each_wf; exact W|exact B|exact F|]. change (tshape (each _ t)) with (tshape t) in Eu. rewrite Eu. cbn [option_map fst snd].
      eexists. split; [reflexivity|]. cbn [fst snd]. split; [apply spread_ok; assumption|]. split; [reflexivity|]. split; [discriminate|]. intros i j r c Hi Hj Hr Hcc. cbn [masked_by mask_at]. rewrite G by assumption.
      change (tshape (each _ t)) with (tshape t). rewrite get_each. destruct (get t _) as [[|]|]; reflexivity.
    + destruct (rank4_ok t b h m n) as (u & Eu & L & Fu & Wu & G); [exact W|exact B|exact F|]. rewrite Eu. cbn [option_map fst snd].
      eexists. split; [reflexivity|]. cbn [fst snd]. split; [reflexivity|]. split; [apply spread_ok; assumption|]. split; [discriminate|]. intros i j r c Hi Hj Hr Hcc. cbn [masked_by mask_at]. rewrite G by assumption. reflexivity.
    + destruct (rank4_ok (each (fun v => Some (IZR v)) t) b h m n) as (u & Eu & L & Fu & Wu & G); [apply each_wf; exact W|exact B|exact F|]. change (tshape (each _ t)) with (tshape t) in Eu. rewrite Eu. cbn [option_map fst snd].
      eexists. split; [reflexivity|]. cbn [fst snd]. split; [reflexivity|]. split; [apply spread_ok; assumption|]. split; [discriminate|]. intros i j r c Hi Hj Hr Hcc. cbn [masked_by mask_at]. rewrite G by assumption.
      change (tshape (each _ t)) with (tshape t). rewrite get_each. destruct (get t _); reflexivity.
  - exists (None, None). cbn. destruct (o_causal o); repeat split; reflexivity.
Qed.

(** ** Calling [attention] *)
Record agrees (p : plan) (four : bool) (z : sizes) (o : att_opt) (x : att_in) : Prop := {
  ag_heads : p_heads p = heads_of four z;
  ag_past : p_past p = some (x_past x);
  ag_scale : option_map f32_of (p_scale p) = o_scale o;
  ag_cap : option_map f32_of (p_softcap p) = o_softcap o;
  ag_causal : p_causal p = o_causal o;
  ag_mask : p_mask p = plan_mask o x
}.
Lemma burn_ok p four z o x : inputs_ok four z x -> agrees p four z o x -> p_qk p = None -> z_hq z = z_hk z ->
  (o_causal o = true -> x_mask x = None /\ z_m z = z_total z) ->
  (o_softcap o <> None -> x_mask x = None /\ o_causal o = false) ->
  (forall m, x_mask x = Some m -> burn_rank (mask_shape m)) ->
  run_attention p x = Some (mkOut (onnx_y z o x) (onnx_present z x) None).
Proof.
  intros I A Eqk Eh Hc Hs Hm. pose proof I as I'. destruct I' as (_ & _ & _ & Hk & _ & _ & _ & _ & _ & _ & _ & HM). unfold run_attention. rewrite (open_ok four z x p I (ag_heads _ _ _ _ _ A)). cbn [obind].
  rewrite (past_ok four z x p I (ag_past _ _ _ _ _ A)). cbn [obind]. rewrite Eqk.
  destruct (mask_args_ok p o x (z_b z) (z_hq z) (z_m z) (z_total z) (ag_mask _ _ _ _ _ A)) as (mb & Emb & S1 & S2 & N0 & Gm).
  { intros H. exact (proj1 (Hc H)). }
  { destruct (x_mask x) as [mk|]; [|exact Logic.I]. destruct HM as [W F]. split; [exact W|]. split; [exact F|apply Hm; reflexivity]. }
  rewrite Emb. cbn [obind]. rewrite (ag_scale _ _ _ _ _ A), (ag_cap _ _ _ _ _ A), (ag_causal _ _ _ _ _ A).
  unfold burn_attention. cbn [quad build tshape]. rewrite <- Eh, !N.eqb_refl, S1, S2. cbn [andb].
  replace (negb (o_causal o) || (z_m z =? z_total z)) with true by (destruct (o_causal o); cbn; [destruct (Hc eq_refl) as [_ ->]; rewrite N.eqb_refl|]; reflexivity).
  replace (negb (some (o_softcap o)) || (negb (some (fst mb)) && negb (some (snd mb)) && negb (o_causal o))) with true.
  2: { destruct (o_softcap o) as [s|]; cbn; [|reflexivity]. destruct (Hs ltac:(discriminate)) as [H1 ->]. rewrite (N0 H1). reflexivity. }
  cbn [andb].
  erewrite tab4.
  2: { intros i j r t Hi Hj Hr Ht. reflexivity. }
  cbn [obind]. rewrite (close_y four z o x p _ I (ag_heads _ _ _ _ _ A)).
  - cbn [obind]. f_equal. f_equal. pose proof (present_ok four z x p I (ag_past _ _ _ _ _ A)) as PO. rewrite <- Eh in PO. exact PO.
  - intros i j r t Hi Hj Hr Ht. unfold result.
    change (build [z_b z; z_hq z; z_m z; z_d z] (fun idx => queries z x (nth 0 idx 0) (nth 1 idx 0) (nth 2 idx 0) (nth 3 idx 0))) with (quad (z_b z) (z_hq z) (z_m z) (z_d z) (queries z x)).
    change (build [z_b z; z_hq z; z_total z; z_d z] (fun idx => keys z x (nth 0 idx 0) (nth 1 idx 0) (nth 2 idx 0) (nth 3 idx 0))) with (quad (z_b z) (z_hq z) (z_total z) (z_d z) (keys z x)).
    change (build [z_b z; z_hq z; z_total z; z_e z] (fun idx => values z x (nth 0 idx 0) (nth 1 idx 0) (nth 2 idx 0) (nth 3 idx 0))) with (quad (z_b z) (z_hq z) (z_total z) (z_e z) (values z x)).
    assert (SC : forall c, c < z_total z ->
      match o_softcap o with
      | Some w => Some (w * tanh (total (z_d z) (fun u => rd (quad (z_b z) (z_hq z) (z_m z) (z_d z) (queries z x)) [i; j; r; u] * rd (quad (z_b z) (z_hq z) (z_total z) (z_d z) (keys z x)) [i; j; c; u]) * match o_scale o with Some s => s | None => default_scale (z_d z) end / w))%R
      | None => eplus (Some (total (z_d z) (fun u => rd (quad (z_b z) (z_hq z) (z_m z) (z_d z) (queries z x)) [i; j; r; u] * rd (quad (z_b z) (z_hq z) (z_total z) (z_d z) (keys z x)) [i; j; c; u]) * match o_scale o with Some s => s | None => default_scale (z_d z) end)%R)
                      (eplus match masked_by (fst mb) (snd mb) [i; j; r; c] with Some v => v | None => None end (if o_causal o && (r <? c) then None else Some 0%R))
      end = capped z o x i j r c).
    { intros c Hcc. unfold capped, score, bias, product, scale. rewrite Gm by assumption. rewrite served_same by assumption. fold (default_scale (z_d z)).
      rewrite (total_ext _ (fun u => (rd _ [i; j; r; u] * rd _ [i; j; c; u])%R) (fun u => (queries z x i j r u * keys z x i j c u)%R)) by (intros u Hu; rewrite !rd4 by assumption; reflexivity).
      destruct (o_softcap o) as [w|]; [|reflexivity]. destruct (Hs ltac:(discriminate)) as [-> ->]. cbn [andb eplus]. rewrite !Rplus_0_r. reflexivity. }
    apply total_ext. intros c Hcc. rewrite SC by exact Hcc. rewrite rd4 by assumption. rewrite served_same by assumption. unfold weight. f_equal. f_equal.
    apply total_ext. intros c' Hc'. rewrite SC by exact Hc'. reflexivity.
Qed.

(** ** The scores computed step by step *)
Lemma along_served z j : 0 < z_hk z -> z_hq z = z_hk z \/ z_hk z = 1 -> j < z_hq z -> along (z_hk z) j = served z j.
Proof.
  intros H [E|E] Hj.
  - rewrite served_same by assumption. apply along_in. lia.
  - rewrite served_one by assumption. unfold along. rewrite E. reflexivity.
Qed.
Lemma zero_r (a : ext) : eplus a (Some 0%R) = a.
Proof. destruct a; cbn; [rewrite Rplus_0_r|]; reflexivity. Qed.
Lemma zero_l (a : ext) : eplus (Some 0%R) a = a.
Proof. destruct a; cbn; [rewrite Rplus_0_l|]; reflexivity. Qed.
Lemma pair_get {A} m n (f : list N -> A) b h i j r c : i < b -> j < h -> r < m -> c < n -> get (build [m; n] f) (bproj [m; n] [i; j; r; c]) = Some (f [r; c]).
Proof.
  intros Hi Hj Hr Hc. replace (bproj [m; n] [i; j; r; c]) with [r; c].
  - apply get_build. repeat (constructor; [assumption|]). constructor.
  - unfold bproj. cbn [length Nat.sub skipn combine map fst snd]. destruct (N.eqb_spec m 1), (N.eqb_spec n 1); repeat f_equal; lia.
Qed.
Lemma pair_fits m n b h : mask_fits [m; n] b h m n.
Proof. split; [cbn; lia|]. cbn [length Nat.sub skipn]. repeat (constructor; [left; reflexivity|]). constructor. Qed.
Definition flat_bool (z : sizes) (x : att_in) : Prop := forall t, x_mask x = Some (MBool t) -> tshape t = [z_m z; z_total z].
Lemma mask_ok four p z o x : inputs_ok four z x -> agrees p four z o x -> (o_causal o = true -> x_mask x = None) -> flat_bool z x ->
  add_mask p (x_mask x) (quad (z_b z) (z_hq z) (z_m z) (z_total z) (fun i j r c => Some (product z o x i j r c))) = Some (quad (z_b z) (z_hq z) (z_m z) (z_total z) (score z o x)).
Proof.
  intros (_ & _ & _ & _ & _ & _ & _ & _ & _ & _ & _ & HM) A Hc Hb. unfold add_mask. set (Q := quad _ _ _ _ (fun i j r c => Some (product z o x i j r c))).
  change (tshape Q) with [z_b z; z_hq z; z_m z; z_total z]. cbv iota. rewrite (ag_causal _ _ _ _ _ A), (ag_mask _ _ _ _ _ A). unfold plan_mask. unfold score, bias. destruct (o_causal o) eqn:Ec.
  - rewrite (Hc eq_refl). rewrite (expand_quad (tril_bias (z_m z) (z_total z)) _ _ _ _ (fun i j r c => if c <=? r then Some 0%R else None)).
    + cbn [obind]. unfold Q. rewrite both_quad. f_equal. apply quad_ext. intros i j r c _ _ _ _. cbn [andb]. rewrite zero_l. rewrite N.leb_antisym. destruct (r <? c); reflexivity.
    + apply build_wf.
    + apply pair_fits.
    + intros i j r c Hi Hj Hr Hcc. apply (pair_get (z_m z) (z_total z) (fun idx => match idx with [r; c] => if c <=? r then Some 0%R else None | _ => None end) (z_b z) (z_hq z)); assumption.
  - cbn [andb]. destruct (x_mask x) as [mk|] eqn:Em; cbn [option_map].
    2: { f_equal. unfold Q. apply quad_ext. intros. rewrite !zero_r. reflexivity. }
    destruct HM as [W F]. destruct mk as [t|t|t]; cbn [kind_in mask_shape mask_wf] in *.
    + pose proof (Hb t Em) as Et. rewrite Et. cbn [length N.of_nat Pos.of_succ_nat Pos.succ]. rewrite (N.eqb_refl 2). cbn [negb]. unfold both at 1. cbn [tshape]. rewrite Et.
      destruct (list_eq_dec N.eq_dec _ _) as [_|?]; [|contradiction].
      rewrite (tab_build _ _ (fun idx => match get t idx with Some true => Some 0%R | _ => None end)).
      2: { intros i Vi. change (mkT [z_m z; z_total z] (map (fun _ : list N => 0%R) (indices [z_m z; z_total z]))) with (build [z_m z; z_total z] (fun _ => 0%R)). rewrite get_build by exact Vi.
           destruct (get_valid t i W) as (v & Ev & _); [rewrite Et; exact Vi|]. rewrite Ev. destruct v; reflexivity. }
      cbn [obind]. rewrite (expand_quad (build [z_m z; z_total z] _) _ _ _ _ (fun i j r c => mask_at (MBool t) [i; j; r; c])).
      * cbn [obind]. unfold Q. rewrite both_quad. f_equal. apply quad_ext. intros. rewrite !zero_r. reflexivity.
      * apply build_wf.
      * apply pair_fits.
      * intros i j r c Hi Hj Hr Hcc. transitivity (Some ((fun idx => match get t idx with Some true => Some 0%R | _ => None end) [r; c])); [exact (pair_get _ _ _ _ _ _ _ _ _ Hi Hj Hr Hcc)|].
        cbn [mask_at]. rewrite Et. do 2 f_equal. replace (bproj [z_m z; z_total z] [i; j; r; c]) with [r; c]; [reflexivity|].
        unfold bproj. cbn [length Nat.sub skipn combine map fst snd]. destruct (N.eqb_spec (z_m z) 1), (N.eqb_spec (z_total z) 1); repeat f_equal; lia.
    + rewrite expand_ed by assumption. cbn [obind]. unfold Q. rewrite both_quad. f_equal. apply quad_ext. intros. rewrite !zero_r, mask_at_ext. reflexivity.
    + rewrite (expand_ed (each _ t)) by (first [apply each_wf; exact W|exact F]). cbn [obind]. unfold Q. rewrite both_quad. f_equal. apply quad_ext. intros. rewrite !zero_r, mask_at_ext. reflexivity.
Qed.
Lemma cap_quad four p z o x : agrees p four z o x -> cap_scores p (quad (z_b z) (z_hq z) (z_m z) (z_total z) (score z o x)) = quad (z_b z) (z_hq z) (z_m z) (z_total z) (capped z o x).
Proof.
  intros A. unfold cap_scores, capped. pose proof (ag_cap _ _ _ _ _ A) as E. destruct (p_softcap p) as [w|]; cbn [option_map] in E; rewrite <- E; [|reflexivity].
  rewrite each_quad. reflexivity.
Qed.
Lemma default_pos d : (0 <= default_scale d)%R.
Proof.
  unfold default_scale. destruct (Rle_lt_or_eq_dec 0 (sqrt (IZR (Z.of_N d))) (sqrt_pos _)) as [H|H]; [left; apply Rinv_0_lt_compat; exact H|].
  rewrite <- H, Rinv_0. lra.
Qed.
Lemma custom_ok p four z o x : inputs_ok four z x -> agrees p four z o x -> p_qk p = Some (o_mode o) -> z_hq z = z_hk z \/ z_hk z = 1 ->
  (o_causal o = true -> x_mask x = None) -> flat_bool z x -> (forall s, o_scale o = Some s -> 0 <= s)%R ->
  run_attention p x = if (o_mode o =? 2) && negb (some (o_softcap o)) then None else Some (mkOut (onnx_y z o x) (onnx_present z x) (Some (onnx_qk z o x))).
Proof.
  intros I A Eqk Eh Hc Hb Hs. pose proof I as I'. destruct I' as (_ & _ & _ & Hk & _ & _ & _ & _ & _ & _ & _ & _). unfold run_attention. rewrite (open_ok four z x p I (ag_heads _ _ _ _ _ A)). cbn [obind].
  rewrite (past_ok four z x p I (ag_past _ _ _ _ _ A)). cbn [obind]. rewrite Eqk. change (tshape (quad (z_b z) (z_hq z) (z_m z) (z_d z) (queries z x))) with [z_b z; z_hq z; z_m z; z_d z]. cbv iota. cbn [obind].
  set (s := match p_scale p with Some w => f32_of w | None => default_scale (z_d z) end).
  assert (Es : s = scale z o). { unfold s, scale. rewrite <- (ag_scale _ _ _ _ _ A). destruct (p_scale p); reflexivity. }
  assert (Ps : (0 <= s)%R). { rewrite Es. unfold scale. destruct (o_scale o) as [w|]; [apply Hs; reflexivity|apply default_pos]. }
  rewrite !each_quad, transpose_quad. cbn [obind]. rewrite matmul_quad by (destruct Eh as [->|E]; [left; reflexivity|right; exact E]). cbn [obind]. rewrite !each_quad.
  rewrite (quad_ext _ _ _ _ _ (fun i j r c => Some (product z o x i j r c))).
  2: { intros i j r c Hi Hj Hr Hcc. f_equal. unfold product. rewrite <- Es, <- total_scale. apply total_ext. intros u Hu. rewrite (along_served z j Hk Eh Hj).
       transitivity (queries z x i j r u * keys z x i (served z j) c u * (sqrt s * sqrt s))%R; [ring|]. rewrite sqrt_sqrt by exact Ps. reflexivity. }
  rewrite (mask_ok four p z o x I A Hc Hb). cbn [obind]. rewrite (cap_quad four p z o x A), softmax_quad. cbn [obind].
  change (quad (z_b z) (z_hq z) (z_m z) (z_total z) (fun i j r c => (expo (capped z o x i j r c) / total (z_total z) (fun k => expo (capped z o x i j r k)))%R)) with (quad (z_b z) (z_hq z) (z_m z) (z_total z) (weight z o x)).
  rewrite matmul_quad by (destruct Eh as [->|E]; [left; reflexivity|right; exact E]). cbn [obind]. rewrite (close_y four z o x p _ I (ag_heads _ _ _ _ _ A)).
  2: { intros i j r t Hi Hj Hr Ht. unfold result. apply total_ext. intros c Hcc. rewrite (along_served z j Hk Eh Hj). reflexivity. }
  cbn [obind]. rewrite (present_ok four z x p I (ag_past _ _ _ _ _ A)).
  assert (Q : forall f : N -> N -> N -> N -> ext, mkT [z_b z; z_hq z; z_m z; z_total z] (map (fun idx => match idx with [i; j; r; c] => f i j r c | _ => None end) (indices [z_b z; z_hq z; z_m z; z_total z])) = quad (z_b z) (z_hq z) (z_m z) (z_total z) f).
  { intros f. apply (build_ext [z_b z; z_hq z; z_m z; z_total z]). intros i Vi. destruct (valid4_inv _ _ _ _ _ Vi) as (? & ? & ? & ? & -> & _). reflexivity. }
  unfold onnx_qk. rewrite Q. unfold stage. destruct (N.eqb_spec (o_mode o) 0) as [->|_]; [reflexivity|]. destruct (N.eqb_spec (o_mode o) 1) as [->|_]; [reflexivity|].
  destruct (N.eqb_spec (o_mode o) 2) as [E2|_].
  - pose proof (ag_cap _ _ _ _ _ A) as Ecap. destruct (p_softcap p); cbn [option_map] in Ecap; rewrite <- Ecap; reflexivity.
  - cbn [obind andb]. rewrite each_quad. reflexivity.
Qed.

(** ** Import *)
Lemma int_read n key c : int_of n key = Some c -> opt_int n key = IOk c.
Proof. unfold int_of, opt_int. destruct (get_attr n key) as [[]|]; intros H; inversion H; reflexivity. Qed.
Lemma float_read n key c : float_of n key = Some c -> opt_float n key = IOk c.
Proof. unfold float_of, opt_float. destruct (get_attr n key) as [[]|]; intros H; inversion H; reflexivity. Qed.
Lemma usize_nat v : v < 2 ^ 63 -> to_usize (Z.of_N v) = v.
Proof. intros H. unfold to_usize. rewrite Z.mod_small by lia. lia. Qed.
Lemma keys_known n : Forall (fun kv => In (fst kv) att_keys) (nattrs n) -> forallb (fun kv : string * attr => existsb (String.eqb (fst kv)) att_keys) (nattrs n) = true.
Proof.
  intros H. apply forallb_forall. intros kv Hk. apply existsb_exists. exists (fst kv). split; [|apply String.eqb_refl].
  rewrite Forall_forall in H. apply H. exact Hk.
Qed.
Lemma read_config n four z o q rest t : ninputs n = q :: rest -> aty q = TensorT t -> options_of n four z o ->
  exists c, att_config n = IOk c /\ ac_causal c = o_causal o /\ ac_mode c = o_mode o /\ option_map f32_of (ac_scale c) = o_scale o /\
    option_map f32_of (match ac_softcap c with Some w => if zero_bits w then None else Some w | None => None end) = o_softcap o /\ ac_precision c = false /\
    (four = false -> ac_kv c = Some (z_hk z) /\ ac_q c = Some (z_hq z)).
Proof.
  intros Ei Et (Hk & (cc & Ec & Oc) & (cs & Es & Os) & (cp & Ep & Op) & (cm & Em & Om & Lm) & (ck & Ek & Ok) & (cq & Eq & Oq) & Pr).
  unfold att_config. rewrite Ei, Et, (keys_known n Hk). cbn [negb].
  rewrite (int_read _ _ _ Ec), (int_read _ _ _ Ek), (int_read _ _ _ Eq), (int_read _ _ _ Em). cbn [ibind].
  replace (match cm with None => IOk 0 | Some v => if (0 <=? v)%Z && (v <=? 3)%Z then IOk (Z.to_N v) else IErr end) with (IOk (o_mode o)).
  2: { destruct cm as [v|]; [replace ((0 <=? v)%Z && (v <=? 3)%Z) with true by lia|]; f_equal; lia. }
  cbn [ibind]. rewrite (float_read _ _ _ Es), (float_read _ _ _ Ep). cbn [ibind]. unfold opt_int. rewrite Pr. cbn [ibind].
  eexists. split; [reflexivity|]. cbn [ac_causal ac_mode ac_scale ac_softcap ac_precision ac_kv ac_q].
  split; [symmetry; exact Oc|]. split; [reflexivity|]. split; [symmetry; exact Os|]. split.
  { rewrite Op. destruct cp as [w|]; [|reflexivity]. destruct (zero_bits w); reflexivity. }
  split; [reflexivity|]. intros F. destruct (Ok F) as [-> Lk]. destruct (Oq F) as [-> Lq]. cbn [option_map]. rewrite !usize_nat by assumption. split; reflexivity.
Qed.
Lemma kind_typed m t : mask_typed m t -> kind_of (tt_dtype t) = kind_in m.
Proof.
  intros [_ H]. unfold kind_of. destruct m; cbn [kind_in].
  - rewrite H. reflexivity.
  - destruct H as [<-|[<-|[<-|[<-|[]]]]]; reflexivity.
  - destruct (tt_dtype t); try reflexivity; exfalso; apply H; cbn; tauto.
Qed.
Lemma not_opt a : asrc a <> VOptional -> is_optional a = false.
Proof. unfold is_optional. destruct (asrc a); congruence || reflexivity. Qed.
Definition four_out (n : rnode) : bool := (4 <=? length (noutputs n))%nat.
Lemma import_ok opset n four z o x : 23 <= opset -> args_of n four x -> options_of n four z o -> inputs_ok four z x ->
  (four_out n = true \/ forall m, x_mask x = Some m -> 2 <= N.of_nat (length (mask_shape m)) <= 4) ->
  exists c p tys, att_config n = IOk c /\ infer_attention opset n = IOk tys /\ out_types n four tys /\ gen_attention c n = Some p /\ agrees p four z o x /\
    p_qk p = if four_out n then Some (o_mode o) else None.
Proof.
  intros Ho (aq & ak & av & am & past & tq & tk & tv & Ei & Eq & Ek & Ev & Rk & Hm & Hp) Op I Rm.
  destruct (read_config n four z o aq _ tq Ei Eq Op) as (c & Ec & Cc & Cm & Cs & Cp & Cx & Ch).
  assert (G3 : given n 3 = match x_mask x with Some _ => nth_error am 0 | None => None end /\ (match x_mask x with Some m => exists a t, nth_error am 0 = Some a /\ aty a = TensorT t /\ mask_typed m t | None => True end)).
  { unfold given. rewrite Ei. cbn [nth_error]. destruct (x_mask x) as [m|].
    - destruct Hm as (a & t & -> & Na & Ta & Mt). cbn [app nth_error]. rewrite (not_opt a Na). split; [reflexivity|]. exists a, t. auto.
    - split; [|exact Logic.I]. destruct Hm as [-> | (a & -> & Na)]; cbn [app nth_error]; [|unfold is_optional; rewrite Na; reflexivity].
      destruct (x_past x) as [[pk pv]|]; [destruct Hp as (H & _); exfalso; apply H; reflexivity|destruct Hp as [-> _]; reflexivity]. }
  assert (Lam : (length am <= 1)%nat). { destruct (x_mask x); [destruct Hm as (? & ? & -> & _); cbn; lia|destruct Hm as [-> | (? & -> & _)]; cbn; lia]. }
  assert (G45 : exists g4 g5, nth_error (ninputs n) 4 = g4 /\ nth_error (ninputs n) 5 = g5 /\ given n 4 = g4 /\ given n 5 = g5 /\
    match x_past x with
    | Some _ => exists a b ta tb, g4 = Some a /\ g5 = Some b /\ aty a = TensorT ta /\ aty b = TensorT tb /\ tt_rank ta = 4 /\ tt_rank tb = 4 /\ (length (noutputs n) = 3 \/ length (noutputs n) = 4)%nat
    | None => g4 = None /\ g5 = None /\ length (noutputs n) = 1%nat end).
  { unfold given. rewrite Ei. cbn [nth_error]. destruct (x_past x) as [pp|].
    - destruct Hp as (Ha & a & b & ta & tb & -> & Na & Nb & Ta & Tb & Ra & Rb & Lo). destruct am as [|a0 [|? ?]]; [contradiction| |cbn in Lam; lia]. cbn [app nth_error].
      rewrite (not_opt a Na), (not_opt b Nb). exists (Some a), (Some b). repeat split. exists a, b, ta, tb. auto 10.
    - destruct Hp as [-> Lo]. exists None, None. destruct am as [|a0 [|? ?]]; [| |cbn in Lam; lia]; cbn; auto 10. }
  destruct G3 as [G3 M3]. destruct G45 as (g4 & g5 & N4 & N5 & G4 & G5 & HP).
  assert (Rq : tt_rank tq = if four then 4 else 3) by (apply Rk; cbn; tauto).
  assert (Rkk : tt_rank tk = if four then 4 else 3) by (apply Rk; cbn; tauto).
  assert (Rv : tt_rank tv = if four then 4 else 3) by (apply Rk; cbn; tauto).
  assert (B : some g4 = some g5 /\ some g4 = (3 <=? length (noutputs n))%nat /\ some g4 = some (x_past x)).
  { destruct (x_past x); [destruct HP as (a & b & ? & ? & -> & -> & _ & _ & _ & _ & Lo); cbn; destruct Lo as [-> | ->]; auto|destruct HP as (-> & -> & ->); auto]. }
  destruct B as (B1 & B2 & B3).
  assert (INF : exists tys, infer_attention opset n = IOk tys /\ out_types n four tys).
  { unfold infer_attention. replace (opset <? 23) with false by lia. rewrite Ei, Eq, Ek, Ev, Rq, Rkk, Rv, Ec, G4, G5. rewrite <- B1, Bool.eqb_reflx, <- B2, Bool.eqb_reflx. rewrite N.eqb_refl. cbn [negb orb].
    assert (Lo : length (noutputs n) = 1%nat \/ length (noutputs n) = 3%nat \/ length (noutputs n) = 4%nat) by (destruct (x_past x); [destruct HP as (? & ? & ? & ? & _ & _ & _ & _ & _ & _ & [Lo|Lo]); auto|destruct HP as (_ & _ & Lo); auto]).
    replace (length (noutputs n) =? 0)%nat with false by lia. replace (length (noutputs n) =? 2)%nat with false by lia.
    replace (negb ((if four then 4 else 3) =? 3) && negb ((if four then 4 else 3) =? 4)) with false by (destruct four; reflexivity).
    replace (((if four then 4 else 3) =? 3) && (negb (some (ac_kv c)) || negb (some (ac_q c)))) with false.
    2: { destruct four; [reflexivity|]. destruct (Ch eq_refl) as [-> ->]. reflexivity. }
    eexists. split; [reflexivity|]. unfold out_types. assert (T0 : forall r, typed_like n 0 r (Some (TensorT (mkTT (tt_dtype tq) r None)))) by (intros r; exists aq, tq; rewrite Ei; auto).
    rewrite firstn_length. cbn [length]. destruct (x_past x).
    - destruct HP as (a & b & ta & tb & -> & -> & Ta & Tb & Ra & Rb & HL). cbn [option_map]. rewrite Ta, Tb. cbn [elem_ty].
      assert (T4 : typed_like n 4 4 (Some (TensorT (mkTT (tt_dtype ta) 4 None)))) by (exists a, ta; auto).
      assert (T5 : typed_like n 5 4 (Some (TensorT (mkTT (tt_dtype tb) 4 None)))) by (exists b, tb; auto).
      destruct HL as [-> | ->]; cbn [Nat.min firstn]; (split; [reflexivity|]); repeat (constructor; [cbn [fst snd]; auto|]); constructor.
    - destruct HP as (-> & -> & ->). cbn [Nat.min firstn]. split; [reflexivity|]. constructor; [cbn [fst snd]; auto|constructor]. }
  destruct INF as (tys & INF & OT).
  assert (GM : gen_mask (four_out n) c n = Some (plan_mask o x)).
  { unfold gen_mask, plan_mask. rewrite Cc, G3. destruct (x_mask x) as [m|].
    - destruct M3 as (a & t & -> & Ta & Mt). rewrite Ta. rewrite (kind_typed m t Mt). destruct Mt as [Rt _].
      replace (four_out n || ((2 <=? tt_rank t) && (tt_rank t <=? 4))) with true.
      + cbn [option_map]. rewrite Rt. destruct (four_out n), (o_causal o); reflexivity.
      + destruct Rm as [-> | Rm]; [reflexivity|]. specialize (Rm m eq_refl). rewrite Rt. lia.
    - cbn [option_map]. destruct (four_out n), (o_causal o); reflexivity. }
  assert (HD : (if (if four then 4 else 3) =? 3 then match ac_q c, ac_kv c with Some q, Some kv => Some (Some (q, kv)) | _, _ => None end else Some None) = Some (heads_of four z)).
  { destruct four; [reflexivity|]. destruct (Ch eq_refl) as [-> ->]. reflexivity. }
  exists c, (mkPlan (heads_of four z) (some g4) (ac_scale c) (match ac_softcap c with Some w => if zero_bits w then None else Some w | None => None end) (ac_causal c) (plan_mask o x) (if four_out n then Some (ac_mode c) else None)), tys.
  split; [exact Ec|]. split; [exact INF|]. split; [exact OT|]. split; [|split].
  - unfold gen_attention. rewrite Cx, N4, N5, <- B1, Bool.eqb_reflx. rewrite Bool.andb_diag, <- B2, Bool.eqb_reflx, Bool.andb_false_r. rewrite Ei. cbn [nth_error option_map]. rewrite Eq, Rq, HD. cbn [obind].
    change (4 <=? length (noutputs n))%nat with (four_out n). rewrite GM. reflexivity.
  - constructor; cbn; auto.
  - cbn. rewrite Cm. reflexivity.
Qed.
