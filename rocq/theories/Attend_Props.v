(** Attention: the code emitted computes what ONNX prescribes (C71). *)
From Coq Require Import Lia ZifyBool ZifyNat ZifyN Lra.
From Verif Require Import ShapeOps_Model TensorRun_Model BinOps_Model Tensor_Proofs Attend_Model Attend_Proofs.
Import Attend_Spec Tensor_Spec.
Local Open Scope N_scope.

(** A valid model: what the node holds and the tensors it is given fit together, and no query
    is cut off from every key. *)
Definition valid_case (n : rnode) (four : bool) (z : sizes) (o : att_opt) (x : att_in) : Prop :=
  args_of n four x /\ options_of n four z o /\ inputs_ok four z x /\ attends z o x /\
  (forall s, o_softcap o = Some s -> 0 < s)%R.

(** Without the scores among the outputs.  With three dimensions or four, with or without
    a mask of booleans, floats or integers, keys and values kept from before, [is_causal],
    [scale] and [softcap], the node is accepted, the outputs get the right types, and the
    code returns the attention and the keys and values to keep.
    Missing: grouped heads, [is_causal] with another number of keys than queries, and
    [softcap] with a mask, which depend on what Burn's [attention] does then; the cases
    refuted below; and rounding. *)
Theorem C71_attention_partial : forall (opset : N) (n : rnode) (four : bool) (z : sizes) (o : att_opt) (x : att_in),
  23 <= opset -> valid_case n four z o x -> (length (noutputs n) < 4)%nat ->
  z_hq z = z_hk z ->
  (o_causal o = true -> x_mask x = None /\ z_m z = z_total z) ->
  (o_softcap o <> None -> x_mask x = None /\ o_causal o = false) ->
  (forall m, x_mask x = Some m -> match mask_shape m with [_; _] | [_; _; _; _] => True | [w; _; _] => w = 1 | _ => False end) ->
  exists c p tys, att_config n = IOk c /\ infer_attention opset n = IOk tys /\ out_types n four tys /\ gen_attention c n = Some p /\
    run_attention p x = Some (mkOut (onnx_y z o x) (onnx_present z x) None).
Proof.
  intros opset n four z o x Ho (Ar & Op & I & _ & _) L Eh Hc Hs Hm. assert (F : four_out n = false) by (unfold four_out; lia).
  destruct (import_ok opset n four z o x Ho Ar Op I) as (c & p & tys & E1 & E2 & E3 & E4 & E5 & E6).
  { right. intros m Em. specialize (Hm m Em). destruct (mask_shape m) as [|? [|? [|? [|? [|? ?]]]]]; try contradiction; cbn [length]; lia. }
  exists c, p, tys. split; [exact E1|]. split; [exact E2|]. split; [exact E3|]. split; [exact E4|]. rewrite F in E6. apply (burn_ok p four z o x I E5 E6 Eh Hc Hs). exact Hm.
Qed.
Print Assumptions C71_attention_partial.

(** With the scores among the outputs, for any mode.  Missing: the cases refuted below, a
    negative [scale], and rounding. *)
Theorem C71_attention_scores_partial : forall (opset : N) (n : rnode) (four : bool) (z : sizes) (o : att_opt) (x : att_in),
  23 <= opset -> valid_case n four z o x -> length (noutputs n) = 4%nat ->
  z_hq z = z_hk z \/ z_hk z = 1 -> (o_causal o = true -> x_mask x = None) ->
  (forall t, x_mask x = Some (MBool t) -> tshape t = [z_m z; z_total z]) -> (forall s, o_scale o = Some s -> 0 <= s)%R -> (o_mode o = 2 -> o_softcap o <> None) ->
  exists c p tys, att_config n = IOk c /\ infer_attention opset n = IOk tys /\ out_types n four tys /\ gen_attention c n = Some p /\
    run_attention p x = Some (mkOut (onnx_y z o x) (onnx_present z x) (Some (onnx_qk z o x))).
Proof.
  intros opset n four z o x Ho (Ar & Op & I & _ & _) L Eh Hc Hb Hs Hm. assert (F : four_out n = true) by (unfold four_out; lia).
  destruct (import_ok opset n four z o x Ho Ar Op I) as (c & p & tys & E1 & E2 & E3 & E4 & E5 & E6); [left; exact F|].
  exists c, p, tys. split; [exact E1|]. split; [exact E2|]. split; [exact E3|]. split; [exact E4|]. rewrite F in E6. rewrite (custom_ok p four z o x I E5 E6 Eh Hc Hb Hs).
  destruct (N.eqb_spec (o_mode o) 2) as [E|_]; [|reflexivity]. specialize (Hm E). destruct (o_softcap o); [reflexivity|contradiction].
Qed.
Print Assumptions C71_attention_scores_partial.

(** ** What is accepted and does not work *)
(** Grouped heads: with the scores among the outputs, keys of fewer heads than the queries
    are not repeated, and the product of the two panics. *)
Theorem C71_grouped_refuted : forall (opset : N) (n : rnode) (four : bool) (z : sizes) (o : att_opt) (x : att_in),
  23 <= opset -> valid_case n four z o x -> length (noutputs n) = 4%nat -> z_hk z <> z_hq z -> z_hk z <> 1 ->
  exists c p tys, att_config n = IOk c /\ infer_attention opset n = IOk tys /\ gen_attention c n = Some p /\ run_attention p x = None.
Proof.
  intros opset n four z o x Ho (Ar & Op & I & _ & _) L N1 N2. assert (F : four_out n = true) by (unfold four_out; lia).
  destruct (import_ok opset n four z o x Ho Ar Op I) as (c & p & tys & E1 & E2 & E3 & E4 & E5 & E6); [left; exact F|].
  exists c, p, tys. split; [exact E1|]. split; [exact E2|]. split; [exact E4|]. rewrite F in E6. unfold run_attention. rewrite (open_ok four z x p I (ag_heads _ _ _ _ _ E5)). cbn [obind].
  rewrite (past_ok four z x p I (ag_past _ _ _ _ _ E5)). cbn [obind]. rewrite E6. change (tshape (quad (z_b z) (z_hq z) (z_m z) (z_d z) (queries z x))) with [z_b z; z_hq z; z_m z; z_d z]. cbv iota. cbn [obind].
  rewrite !each_quad, transpose_quad. cbn [obind]. rewrite matmul_none; [reflexivity|exact N1|exact N2|].
  destruct I as (_ & _ & _ & Hk & Hd & Hq & _). intros E. rewrite E in Hd. rewrite N.mod_small in Hd by lia. lia.
Qed.
Print Assumptions C71_grouped_refuted.

(** Mode 2 without [softcap] asks for scores that are equal to those of mode 1; the code
    names a variable that is not there and does not compile. *)
Theorem C71_softcap_mode_refuted : forall (opset : N) (n : rnode) (four : bool) (z : sizes) (o : att_opt) (x : att_in),
  23 <= opset -> valid_case n four z o x -> length (noutputs n) = 4%nat ->
  z_hq z = z_hk z \/ z_hk z = 1 -> (o_causal o = true -> x_mask x = None) ->
  (forall t, x_mask x = Some (MBool t) -> tshape t = [z_m z; z_total z]) -> (forall s, o_scale o = Some s -> 0 <= s)%R -> o_mode o = 2 -> o_softcap o = None ->
  exists c p tys, att_config n = IOk c /\ infer_attention opset n = IOk tys /\ gen_attention c n = Some p /\ run_attention p x = None.
Proof.
  intros opset n four z o x Ho (Ar & Op & I & _ & _) L Eh Hc Hb Hs Hm Hcap. assert (F : four_out n = true) by (unfold four_out; lia).
  destruct (import_ok opset n four z o x Ho Ar Op I) as (c & p & tys & E1 & E2 & E3 & E4 & E5 & E6); [left; exact F|].
  exists c, p, tys. split; [exact E1|]. split; [exact E2|]. split; [exact E4|]. rewrite F in E6. rewrite (custom_ok p four z o x I E5 E6 Eh Hc Hb Hs). rewrite Hm, Hcap. reflexivity.
Qed.
Print Assumptions C71_softcap_mode_refuted.

(** A mask of booleans of another rank than 2, with the scores among the outputs. *)
Theorem C71_bool_mask_refuted : forall (opset : N) (n : rnode) (four : bool) (z : sizes) (o : att_opt) (x : att_in) (t : tensor bool),
  23 <= opset -> valid_case n four z o x -> length (noutputs n) = 4%nat -> o_causal o = false -> x_mask x = Some (MBool t) -> length (tshape t) <> 2%nat ->
  exists c p tys, att_config n = IOk c /\ infer_attention opset n = IOk tys /\ gen_attention c n = Some p /\ run_attention p x = None.
Proof.
  intros opset n four z o x t Ho (Ar & Op & I & _ & _) L Hc Em Lt. assert (F : four_out n = true) by (unfold four_out; lia).
  destruct (import_ok opset n four z o x Ho Ar Op I) as (c & p & tys & E1 & E2 & E3 & E4 & E5 & E6); [left; exact F|].
  exists c, p, tys. split; [exact E1|]. split; [exact E2|]. split; [exact E4|]. rewrite F in E6. unfold run_attention. destruct (open_heads _ _ _ _) as [[[q k0] v0]|]; [|reflexivity]. cbn [obind].
  destruct (with_past _ _ _ _) as [[k v]|]; [|reflexivity]. cbn [obind]. rewrite E6.
  assert (AM : forall qk, add_mask p (x_mask x) qk = None).
  { intros qk. unfold add_mask. destruct (tshape qk) as [|? [|? [|? [|? [|? ?]]]]]; try reflexivity. rewrite (ag_causal _ _ _ _ _ E5), (ag_mask _ _ _ _ _ E5), Hc. unfold plan_mask. rewrite Hc, Em. cbn [option_map kind_in mask_shape].
    replace (N.of_nat (length (tshape t)) =? 2) with false by lia. reflexivity. }
  destruct (match tshape q with [_; _; _; d] => _ | _ => None end) as [s|]; [|reflexivity]. cbn [obind]. destruct (transpose4 _) as [kt|]; [|reflexivity]. cbn [obind].
  destruct (matmul4 _ kt) as [qk0|]; [|reflexivity]. cbn [obind]. rewrite AM. reflexivity.
Qed.
Print Assumptions C71_bool_mask_refuted.

(** With [is_causal] a mask is not looked at: the code returns what ONNX prescribes without it. *)
Theorem C71_causal_mask_ignored : forall (opset : N) (n : rnode) (four : bool) (z : sizes) (o : att_opt) (x : att_in),
  23 <= opset -> valid_case n four z o x -> (length (noutputs n) < 4)%nat -> z_hq z = z_hk z -> o_causal o = true -> z_m z = z_total z -> o_softcap o = None ->
  (forall m, x_mask x = Some m -> 2 <= N.of_nat (length (mask_shape m)) <= 4) ->
  exists c p, att_config n = IOk c /\ gen_attention c n = Some p /\
    run_attention p x = Some (mkOut (onnx_y z o (mkIn (x_q x) (x_k x) (x_v x) None (x_past x))) (onnx_present z x) None).
Proof.
  intros opset n four z o x Ho (Ar & Op & I & _ & _) L Eh Hc Em Hcap Hm. assert (F : four_out n = false) by (unfold four_out; lia).
  destruct (import_ok opset n four z o x Ho Ar Op I) as (c & p & tys & E1 & E2 & E3 & E4 & E5 & E6); [right; exact Hm|].
  exists c, p. split; [exact E1|]. split; [exact E4|]. rewrite F in E6. set (x' := mkIn _ _ _ _ _).
  assert (I' : inputs_ok four z x'). { destruct I as (A1 & A2 & A3 & A4 & A5 & A6 & A7 & A8 & A9 & A10 & A11 & _). repeat (split; [assumption|]). exact Logic.I. }
  assert (A' : agrees p four z o x'). { destruct E5 as [B1 B2 B3 B4 B5 B6]. constructor; try assumption. rewrite B6. unfold plan_mask. rewrite Hc. reflexivity. }
  transitivity (run_attention p x').
  - unfold run_attention, mask_args. destruct A' as [_ _ _ _ _ ->]. unfold plan_mask. rewrite Hc, E6. reflexivity.
  - rewrite (burn_ok p four z o x' I' A' E6 Eh); [reflexivity| | |].
    + intros _. split; [reflexivity|exact Em].
    + rewrite Hcap. intros H. contradiction.
    + intros m H. discriminate H.
Qed.
Print Assumptions C71_causal_mask_ignored.

(** A mask of three dimensions, one for each head, is taken as one for each image. *)
Theorem C71_mask_by_image : forall (opset : N) (n : rnode) (four : bool) (z : sizes) (o : att_opt) (x : att_in) (t : tensor bool),
  23 <= opset -> valid_case n four z o x -> (length (noutputs n) < 4)%nat -> z_hq z = z_hk z -> z_b z = z_hq z -> o_causal o = false -> o_softcap o = None ->
  x_mask x = Some (MBool t) -> tshape t = [z_hq z; z_m z; z_total z] ->
  exists c p, att_config n = IOk c /\ gen_attention c n = Some p /\
    run_attention p x = Some (mkOut (onnx_y z o (mkIn (x_q x) (x_k x) (x_v x) (Some (MBool (mkT [z_b z; 1; z_m z; z_total z] (tdata t)))) (x_past x))) (onnx_present z x) None).
Proof.
  intros opset n four z o x t Ho (Ar & Op & I & _ & _) L Eh Eb Hc Hcap Em Et. assert (F : four_out n = false) by (unfold four_out; lia).
  destruct (import_ok opset n four z o x Ho Ar Op I) as (c & p & tys & E1 & E2 & E3 & E4 & E5 & E6).
  { right. intros m H. rewrite Em in H. injection H as <-. cbn [mask_shape]. rewrite Et. cbn. lia. }
  exists c, p. split; [exact E1|]. split; [exact E4|]. rewrite F in E6. set (x' := mkIn _ _ _ _ _).
  assert (I' : inputs_ok four z x').
  { destruct I as (A1 & A2 & A3 & A4 & A5 & A6 & A7 & A8 & A9 & A10 & A11 & A12). repeat (split; [assumption|]). rewrite Em in A12. destruct A12 as [W _]. cbn [x' x_mask mask_wf mask_shape]. split.
    - cbn [mask_wf] in *. unfold twf in *. cbn [tshape tdata]. rewrite W, Et, Eb. cbn [prodN]. f_equal. lia.
    - split; [cbn; lia|]. cbn [tshape length Nat.sub skipn]. repeat (constructor; [first [left; reflexivity|right; reflexivity]|]). constructor. }
  pose (p' := mkPlan (p_heads p) (p_past p) (p_scale p) (p_softcap p) (p_causal p) (Some (KBoolMask, 4)) (p_qk p)).
  assert (A' : agrees p' four z o x'). { destruct E5 as [B1 B2 B3 B4 B5 B6]. constructor; try assumption. unfold plan_mask. rewrite Hc. reflexivity. }
  transitivity (run_attention p' x').
  - assert (M : mask_args p (x_mask x) = mask_args p' (x_mask x')).
    { unfold mask_args. rewrite (ag_mask _ _ _ _ _ E5). unfold plan_mask. rewrite Hc, Em. cbn [option_map kind_in mask_shape x_mask x' p_mask p']. unfold to_rank4, each. cbn [tshape tdata]. rewrite Et, Eb. reflexivity. }
    unfold run_attention. change (p_qk p') with (p_qk p). rewrite E6, M. reflexivity.
  - rewrite (burn_ok p' four z o x' I' A' E6 Eh); [reflexivity| | |].
    + rewrite Hc. discriminate.
    + rewrite Hcap. intros H. contradiction.
    + intros m H. injection H as <-. exact Logic.I.
Qed.
Print Assumptions C71_mask_by_image.

(** [softmax_precision] is read and then refused by a panic of the generator. *)
Theorem C71_precision_refused : forall (n : rnode) (c : aconf) (v : attr),
  att_config n = IOk c -> get_attr n "softmax_precision" = Some v -> gen_attention c n = None.
Proof.
  intros n c v H E. unfold att_config in H. destruct (ninputs n) as [|q r]; [discriminate|]. destruct (aty q); try discriminate. destruct (forallb _ _); [|discriminate]. cbn [negb] in H.
  repeat match type of H with ibind ?e _ = _ => destruct e eqn:?; try discriminate; cbn [ibind] in H end.
  match goal with E' : opt_int n "softmax_precision" = IOk ?a |- _ => unfold opt_int in E'; rewrite E in E'; destruct v; try discriminate; injection E' as <- end.
  injection H as <-. reflexivity.
Qed.
Print Assumptions C71_precision_refused.

(** ONNX allows the scores without keys kept from before, the names of the two outputs in
    between being empty; import refuses them. *)
Theorem C71_scores_alone_refused : forall (opset : N) (n : rnode), length (noutputs n) = 4%nat -> given n 4 = None -> given n 5 = None -> infer_attention opset n = IErr.
Proof.
  intros opset n L G4 G5. unfold infer_attention. destruct (opset <? 23); [reflexivity|]. destruct (ninputs n) as [|iq [|ik [|iv r]]]; try reflexivity. rewrite L, G4, G5. cbn [Nat.eqb Nat.leb some].
  destruct (aty iq), (aty ik), (aty iv); try reflexivity. destruct (_ || _); [reflexivity|]. destruct (_ && _); reflexivity.
Qed.
Print Assumptions C71_scores_alone_refused.

(** Two empty names at the end of the list of inputs are accepted by the inference and make
    the generator panic. *)
Theorem C71_empty_past_refuted : forall (opset : N) (n : rnode) (c : aconf) (tys : list (option argty)) (a b : arg),
  infer_attention opset n = IOk tys -> att_config n = IOk c -> length (noutputs n) = 1%nat ->
  nth_error (ninputs n) 4 = Some a -> nth_error (ninputs n) 5 = Some b -> gen_attention c n = None.
Proof.
  intros opset n c tys a b _ _ L E4 E5. unfold gen_attention. rewrite L, E4, E5. destruct (ac_precision c); reflexivity.
Qed.
Print Assumptions C71_empty_past_refuted.

(** ** Cases *)
Definition ex_arg (nm : string) (t : argty) : arg := mkArg nm t VDynamic.
Definition ex_t (d : dtype) (r : N) : argty := TensorT (mkTT d r None).
Local Open Scope string_scope.
(** Two queries and two keys of one head; the mask hides the first key from the second query. *)
Definition ex_x : att_in := mkIn (mkT [1; 1; 2; 1] [0; 0]%R) (mkT [1; 1; 2; 1] [3; 5]%R) (mkT [1; 1; 2; 1] [0; 1]%R) (Some (MBool (mkT [2; 2] [true; true; false; true]))) None.
Definition ex_z : sizes := mkSz 1 1 1 2 2 0 1 1.
Definition ex_o (c : bool) : att_opt := mkOpt c None None 0.
Definition ex_n (c : Z) : rnode := mkNode "Attention" "a" [ex_arg "q" (ex_t F32 4); ex_arg "k" (ex_t F32 4); ex_arg "v" (ex_t F32 4); ex_arg "m" (ex_t BoolT 2)] [ex_arg "y" (ex_t F32 4)] [("is_causal", AInt c)].
Lemma ex_valid b c : b = negb (c =? 0)%Z -> valid_case (ex_n c) true ex_z (ex_o b) ex_x.
Proof.
  intros Hb. split; [|split; [|split; [|split]]].
  - exists (ex_arg "q" (ex_t F32 4)), (ex_arg "k" (ex_t F32 4)), (ex_arg "v" (ex_t F32 4)), [ex_arg "m" (ex_t BoolT 2)], [], (mkTT F32 4 None), (mkTT F32 4 None), (mkTT F32 4 None).
    repeat (split; [reflexivity|]). split; [intros t [<-|[<-|[<-|[]]]]; reflexivity|]. split; [|split; reflexivity].
    exists (ex_arg "m" (ex_t BoolT 2)), (mkTT BoolT 2 None). split; [reflexivity|]. split; [discriminate|]. split; [reflexivity|]. split; reflexivity.
  - split; [repeat constructor; cbn; auto|]. split; [exists (Some c); split; [reflexivity|exact Hb]|]. split; [exists None; split; reflexivity|]. split; [exists None; split; reflexivity|].
    split; [exists None; split; [reflexivity|split; [reflexivity|cbn; lia]]|]. split; [exists None; split; [reflexivity|discriminate]|]. split; [exists None; split; [reflexivity|discriminate]|reflexivity].
  - repeat split; cbn; try lia. repeat (constructor; [left; reflexivity|]). constructor.
  - intros i j r Hi Hj Hr. cbn in Hi, Hj, Hr. exists r. split; [exact Hr|]. assert (i = 0) by lia. assert (j = 0) by lia. subst i j. assert (r = 0 \/ r = 1) as [-> | ->] by lia; destruct b; discriminate.
  - discriminate.
Qed.
(** [C71_attention_partial] applies to it without [is_causal]. *)
Example ex_attention : exists c p tys, att_config (ex_n 0) = IOk c /\ infer_attention 23 (ex_n 0) = IOk tys /\ out_types (ex_n 0) true tys /\ gen_attention c (ex_n 0) = Some p /\
  run_attention p ex_x = Some (mkOut (onnx_y ex_z (ex_o false) ex_x) None None).
Proof.
  apply (C71_attention_partial 23 (ex_n 0) true ex_z (ex_o false) ex_x); [lia|apply ex_valid; reflexivity|cbn; lia|reflexivity|discriminate|intros H; contradiction H; reflexivity|].
  intros m H. injection H as <-. exact Logic.I.
Qed.
Lemma product_zero z o x i j r c : (forall u, u < z_d z -> queries z x i j r u = 0%R) -> product z o x i j r c = 0%R.
Proof.
  intros H. unfold product. rewrite (total_ext _ _ (fun _ => (0 * 0)%R)) by (intros u Hu; rewrite H by exact Hu; ring). rewrite (total_scale _ (fun _ => 0%R)). ring.
Qed.
Lemma total2 f : total 2 f = (f 0%N + (f 1%N + 0))%R.
Proof. reflexivity. Qed.
(** The mask is needed: the second query must see the second key only, and the code lets it
    see both. *)
Theorem C71_causal_mask_refuted : exists (n : rnode) (z : sizes) (o : att_opt) (x : att_in) (c : aconf) (p : plan) (y : att_out),
  valid_case n true z o x /\ att_config n = IOk c /\ gen_attention c n = Some p /\ run_attention p x = Some y /\ y_out y <> onnx_y z o x.
Proof.
  destruct (C71_causal_mask_ignored 23 (ex_n 1) true ex_z (ex_o true) ex_x) as (c & p & E1 & E2 & E3); [lia|apply ex_valid; reflexivity|cbn; lia|reflexivity|reflexivity|reflexivity|reflexivity| |].
  { intros m H. injection H as <-. cbn. lia. }
  eexists (ex_n 1), ex_z, (ex_o true), ex_x, c, p, _. split; [apply ex_valid; reflexivity|]. split; [exact E1|]. split; [exact E2|]. split; [exact E3|]. cbn [y_out]. set (x' := mkIn _ _ _ _ _). intros H.
  assert (R : forall x0, tshape (x_q x0) = [1; 1; 2; 1] -> rd (onnx_y ex_z (ex_o true) x0) [0; 0; 1; 0] = result ex_z (ex_o true) x0 0 0 1 0).
  { intros x0 E. unfold onnx_y. rewrite E, mk4_quad. apply rd4; cbn; lia. }
  assert (Q : result ex_z (ex_o true) x' 0 0 1 0 = result ex_z (ex_o true) ex_x 0 0 1 0) by (rewrite <- !R by reflexivity; f_equal; exact H).
  assert (P' : forall k, k < 2 -> product ex_z (ex_o true) x' 0 0 1 k = 0%R) by (intros k Hk; apply product_zero; intros u Hu; assert (u = 0) as -> by (cbn in Hu; lia); reflexivity).
  assert (P : forall k, k < 2 -> product ex_z (ex_o true) ex_x 0 0 1 k = 0%R) by (intros k Hk; apply product_zero; intros u Hu; assert (u = 0) as -> by (cbn in Hu; lia); reflexivity).
  assert (C0 : capped ex_z (ex_o true) x' 0 0 1 0 = Some 0%R). { unfold capped, score. cbn [ex_o o_softcap]. rewrite P' by lia. change (bias (ex_o true) x' 0 0 1 0) with (Some (0 + 0)%R). cbn [eplus]. f_equal. ring. }
  assert (C1 : capped ex_z (ex_o true) x' 0 0 1 1 = Some 0%R). { unfold capped, score. cbn [ex_o o_softcap]. rewrite P' by lia. change (bias (ex_o true) x' 0 0 1 1) with (Some (0 + 0)%R). cbn [eplus]. f_equal. ring. }
  assert (D0 : capped ex_z (ex_o true) ex_x 0 0 1 0 = None) by reflexivity.
  assert (D1 : capped ex_z (ex_o true) ex_x 0 0 1 1 = Some 0%R). { unfold capped, score. cbn [ex_o o_softcap]. rewrite P by lia. change (bias (ex_o true) ex_x 0 0 1 1) with (Some (0 + 0)%R). cbn [eplus]. f_equal. ring. }
  unfold result, weight in Q. change (z_total ex_z) with 2 in Q. rewrite !total2 in Q. rewrite C0, C1, D0, D1 in Q. change (served ex_z 0) with 0 in Q.
  change (values ex_z x' 0 0 0 0) with 0%R in Q. change (values ex_z x' 0 0 1 0) with 1%R in Q. change (values ex_z ex_x 0 0 0 0) with 0%R in Q. change (values ex_z ex_x 0 0 1 0) with 1%R in Q.
  cbn [expo] in Q. rewrite exp_0 in Q. lra.
Qed.
Print Assumptions C71_causal_mask_refuted.

(** Two images, two heads, one query and two keys; for the first head the mask hides the
    second key, for the second head the first. *)
Definition ex3_x : att_in := mkIn (mkT [2; 2; 1; 1] [0; 0; 0; 0]%R) (mkT [2; 2; 2; 1] [1; 2; 3; 4; 5; 6; 7; 8]%R) (mkT [2; 2; 2; 1] [0; 1; 0; 1; 0; 1; 0; 1]%R) (Some (MBool (mkT [2; 1; 2] [true; false; false; true]))) None.
Definition ex3_z : sizes := mkSz 2 2 2 1 2 0 1 1.
Definition ex3_n : rnode := mkNode "Attention" "a" [ex_arg "q" (ex_t F32 4); ex_arg "k" (ex_t F32 4); ex_arg "v" (ex_t F32 4); ex_arg "m" (ex_t BoolT 3)] [ex_arg "y" (ex_t F32 4)] [].
Lemma ex3_valid : valid_case ex3_n true ex3_z (ex_o false) ex3_x.
Proof.
  split; [|split; [|split; [|split]]].
  - exists (ex_arg "q" (ex_t F32 4)), (ex_arg "k" (ex_t F32 4)), (ex_arg "v" (ex_t F32 4)), [ex_arg "m" (ex_t BoolT 3)], [], (mkTT F32 4 None), (mkTT F32 4 None), (mkTT F32 4 None).
    repeat (split; [reflexivity|]). split; [intros t [<-|[<-|[<-|[]]]]; reflexivity|]. split; [|split; reflexivity].
    exists (ex_arg "m" (ex_t BoolT 3)), (mkTT BoolT 3 None). split; [reflexivity|]. split; [discriminate|]. split; [reflexivity|]. split; reflexivity.
  - split; [constructor|]. split; [exists None; split; reflexivity|]. split; [exists None; split; reflexivity|]. split; [exists None; split; reflexivity|].
    split; [exists None; split; [reflexivity|split; [reflexivity|cbn; lia]]|]. split; [exists None; split; [reflexivity|discriminate]|]. split; [exists None; split; [reflexivity|discriminate]|reflexivity].
  - repeat split; cbn; try lia. repeat (constructor; [left; reflexivity|]). constructor.
  - intros i j r Hi Hj Hr. cbn in Hi, Hj, Hr. exists j. split; [exact Hj|]. assert (r = 0) by lia. subst r. assert (j = 0 \/ j = 1) as [-> | ->] by lia; assert (i = 0 \/ i = 1) as [-> | ->] by lia; discriminate.
  - discriminate.
Qed.
Theorem C71_mask_rank3_refuted : exists (n : rnode) (z : sizes) (o : att_opt) (x : att_in) (c : aconf) (p : plan) (y : att_out),
  valid_case n true z o x /\ att_config n = IOk c /\ gen_attention c n = Some p /\ run_attention p x = Some y /\ y_out y <> onnx_y z o x.
Proof.
  destruct (C71_mask_by_image 23 ex3_n true ex3_z (ex_o false) ex3_x (mkT [2; 1; 2] [true; false; false; true])) as (c & p & E1 & E2 & E3); [lia|apply ex3_valid|cbn; lia|reflexivity|reflexivity|reflexivity|reflexivity|reflexivity|reflexivity|].
  eexists ex3_n, ex3_z, (ex_o false), ex3_x, c, p, _. split; [apply ex3_valid|]. split; [exact E1|]. split; [exact E2|]. split; [exact E3|]. cbn [y_out]. set (x' := mkIn _ _ _ _ _). intros H.
  assert (R : forall x0, tshape (x_q x0) = [2; 2; 1; 1] -> rd (onnx_y ex3_z (ex_o false) x0) [0; 1; 0; 0] = result ex3_z (ex_o false) x0 0 1 0 0).
  { intros x0 E. unfold onnx_y. rewrite E, mk4_quad. apply rd4; cbn; lia. }
  assert (Q : result ex3_z (ex_o false) x' 0 1 0 0 = result ex3_z (ex_o false) ex3_x 0 1 0 0) by (rewrite <- !R by reflexivity; f_equal; exact H).
  assert (P' : product ex3_z (ex_o false) x' 0 1 0 0 = 0%R) by (apply product_zero; intros u Hu; assert (u = 0) as -> by (cbn in Hu; lia); reflexivity).
  assert (P : product ex3_z (ex_o false) ex3_x 0 1 0 1 = 0%R) by (apply product_zero; intros u Hu; assert (u = 0) as -> by (cbn in Hu; lia); reflexivity).
  assert (C0 : capped ex3_z (ex_o false) x' 0 1 0 0 = Some 0%R). { unfold capped, score. cbn [ex_o o_softcap]. rewrite P'. change (bias (ex_o false) x' 0 1 0 0) with (Some (0 + 0)%R). cbn [eplus]. f_equal. ring. }
  assert (C1 : capped ex3_z (ex_o false) x' 0 1 0 1 = None) by reflexivity.
  assert (D0 : capped ex3_z (ex_o false) ex3_x 0 1 0 0 = None) by reflexivity.
  assert (D1 : capped ex3_z (ex_o false) ex3_x 0 1 0 1 = Some 0%R). { unfold capped, score. cbn [ex_o o_softcap]. rewrite P. change (bias (ex_o false) ex3_x 0 1 0 1) with (Some (0 + 0)%R). cbn [eplus]. f_equal. ring. }
  unfold result, weight in Q. change (z_total ex3_z) with 2 in Q. rewrite !total2 in Q. rewrite C0, C1, D0, D1 in Q. change (served ex3_z 1) with 1 in Q.
  change (values ex3_z x' 0 1 0 0) with 0%R in Q. change (values ex3_z x' 0 1 1 0) with 1%R in Q. change (values ex3_z ex3_x 0 1 0 0) with 0%R in Q. change (values ex3_z ex3_x 0 1 1 0) with 1%R in Q.
  cbn [expo] in Q. rewrite exp_0 in Q. lra.
Qed.
Print Assumptions C71_mask_rank3_refuted.

(** Three dimensions, two heads of the queries served by one of the keys, one key kept from
    before, a mask of floats with a minus infinity, and the scores after the mask. *)
Definition ex4_x : att_in := mkIn (mkT [1; 1; 2] [1; 2]%R) (mkT [1; 1; 1] [3]%R) (mkT [1; 1; 1] [4]%R) (Some (MFloat (mkT [2; 1; 2] [Some 0; None; Some 1; Some 2]%R))) (Some (mkT [1; 1; 1; 1] [5]%R, mkT [1; 1; 1; 1] [6]%R)).
Definition ex4_z : sizes := mkSz 1 2 1 1 1 1 1 1.
Definition ex4_o : att_opt := mkOpt false None None 1.
Definition ex4_n : rnode := mkNode "Attention" "a" [ex_arg "q" (ex_t F32 3); ex_arg "k" (ex_t F32 3); ex_arg "v" (ex_t F32 3); ex_arg "m" (ex_t F32 3); ex_arg "pk" (ex_t F32 4); ex_arg "pv" (ex_t F32 4)]
  [ex_arg "y" (ex_t F32 3); ex_arg "k1" (ex_t F32 4); ex_arg "v1" (ex_t F32 4); ex_arg "s" (ex_t F32 4)] [("kv_num_heads", AInt 1); ("q_num_heads", AInt 2); ("qk_matmul_output_mode", AInt 1)].
Lemma ex4_valid : valid_case ex4_n false ex4_z ex4_o ex4_x.
Proof.
  split; [|split; [|split; [|split]]].
  - exists (ex_arg "q" (ex_t F32 3)), (ex_arg "k" (ex_t F32 3)), (ex_arg "v" (ex_t F32 3)), [ex_arg "m" (ex_t F32 3)], [ex_arg "pk" (ex_t F32 4); ex_arg "pv" (ex_t F32 4)], (mkTT F32 3 None), (mkTT F32 3 None), (mkTT F32 3 None).
    repeat (split; [reflexivity|]). split; [intros t [<-|[<-|[<-|[]]]]; reflexivity|]. split.
    + exists (ex_arg "m" (ex_t F32 3)), (mkTT F32 3 None). split; [reflexivity|]. split; [discriminate|]. split; [reflexivity|]. split; [reflexivity|cbn; tauto].
    + split; [discriminate|]. eexists _, _, _, _. split; [reflexivity|]. split; [discriminate|]. split; [discriminate|]. repeat (split; [reflexivity|]). right. reflexivity.
  - split; [repeat (apply Forall_cons; [cbn; tauto|]); apply Forall_nil|]. split; [exists None; split; reflexivity|]. split; [exists None; split; reflexivity|]. split; [exists None; split; reflexivity|].
    split; [exists (Some 1%Z); split; [reflexivity|split; [reflexivity|cbn; lia]]|]. split; [exists (Some 1%Z); split; [reflexivity|split; [reflexivity|cbn; lia]]|]. split; [exists (Some 2%Z); split; [reflexivity|split; [reflexivity|cbn; lia]]|reflexivity].
  - repeat split; cbn; try lia. repeat (constructor; [left; reflexivity|]). constructor.
  - intros i j r Hi Hj Hr. cbn in Hi, Hj, Hr. exists 0. split; [cbn; lia|]. assert (i = 0) by lia. assert (r = 0) by lia. subst i r. assert (j = 0 \/ j = 1) as [-> | ->] by lia; discriminate.
  - discriminate.
Qed.
Example ex_scores : exists c p tys, att_config ex4_n = IOk c /\ infer_attention 23 ex4_n = IOk tys /\ out_types ex4_n false tys /\ gen_attention c ex4_n = Some p /\
  run_attention p ex4_x = Some (mkOut (onnx_y ex4_z ex4_o ex4_x) (onnx_present ex4_z ex4_x) (Some (onnx_qk ex4_z ex4_o ex4_x))).
Proof.
  apply (C71_attention_scores_partial 23 ex4_n false ex4_z ex4_o ex4_x); [lia|apply ex4_valid|reflexivity|right; reflexivity|discriminate|discriminate|discriminate|discriminate].
Qed.
(** The scores of the second head: 2 * 5 + 1 and 2 * 3 + 2. *)
Example ex_scores_values : ed (onnx_qk ex4_z ex4_o ex4_x) [0; 0; 0; 1] = None /\ ed (onnx_qk ex4_z ex4_o ex4_x) [0; 1; 0; 0] = Some 11%R /\ ed (onnx_qk ex4_z ex4_o ex4_x) [0; 1; 0; 1] = Some 8%R.
Proof.
  assert (E1 : scale ex4_z ex4_o = 1%R) by (unfold scale; cbn; rewrite sqrt_1, Rinv_1; reflexivity).
  split; [reflexivity|]. split.
  - change (ed (onnx_qk ex4_z ex4_o ex4_x) [0; 1; 0; 0]) with (Some ((2 * 5 + 0) * scale ex4_z ex4_o + (1 + 0))%R). rewrite E1. f_equal. ring.
  - change (ed (onnx_qk ex4_z ex4_o ex4_x) [0; 1; 0; 1]) with (Some ((2 * 3 + 0) * scale ex4_z ex4_o + (2 + 0))%R). rewrite E1. f_equal. ring.
Qed.
(** The hypotheses of [C71_empty_past_refuted] are met. *)
Example ex_empty_past : let n := mkNode "Attention" "a" [ex_arg "q" (ex_t F32 4); ex_arg "k" (ex_t F32 4); ex_arg "v" (ex_t F32 4); mkArg "" (ex_t F32 0) VOptional; mkArg "" (ex_t F32 0) VOptional; mkArg "" (ex_t F32 0) VOptional] [ex_arg "y" (ex_t F32 4)] [] in
  exists tys c, infer_attention 23 n = IOk tys /\ att_config n = IOk c /\ gen_attention c n = None.
Proof. do 2 eexists. repeat split. Qed.
