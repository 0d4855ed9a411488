(** Resize: the code emitted computes what ONNX prescribes (C72). *)
From Coq Require Import Lia ZifyBool ZifyNat ZifyN Lra.
From Verif Require Import Tensor_Proofs Resize_Model Resize_Proofs.
Import Resize_Spec Tensor_Spec.
Local Open Scope N_scope.

(** For every mode, with the sizes or the scales in the model or known only at run time, the
    node is accepted, its type has the right element type and rank, and the code returns the
    interpolation.
    Missing: one spatial axis with sizes or scales at run time, three or more, the modes of
    coordinates, rounding and coefficients outside [supported], scales that are not the
    ratio of the sizes (all refuted below), and rounding of floats. *)
Theorem C72_resize_partial : forall (value : arg -> option cval) (opset : N) (n : rnode) (t : tensor_type) (q : request) (w : want) (dyn : option rval) (axes : list axis) (X : rt),
  11 <= opset -> resize_node value n t w dyn -> resize_options n q -> asks w (tshape X) axes -> tt_rank t = N.of_nat (length (tshape X)) ->
  Forall (supported q) axes ->
  length (tshape X) = 4%nat \/ (length (tshape X) = 3%nat /\ dyn = None) ->
  exists c u code, resize_config value opset n = IOk c /\ infer_resize value opset n = IOk (TensorT u) /\ gen_resize c n = Some code /\
    run_resize code dyn X = Some (onnx_resize q axes X) /\
    tt_dtype u = tt_dtype t /\ tt_rank u = N.of_nat (length (tshape (onnx_resize q axes X))).
Proof.
  intros value opset n t q w dyn axes X Ho Hn Hq Ha Hr Hs Hl. destruct (code_ok value opset n t q w dyn axes X Ho Hn Hq Ha Hr Hl) as (c & code & C & I & G & E). exists c, t, code.
  destruct (asks_ok _ _ _ Ha) as (b & ch & Es & _). split; [exact C|]. split; [exact I|]. split; [exact G|]. split; [rewrite E; apply (interpolate_ok q axes b ch X Hs Es)|]. split; [reflexivity|].
  rewrite Hr. unfold onnx_resize. rewrite Es. cbn [tshape mk length]. rewrite !map_length. reflexivity.
Qed.
Print Assumptions C72_resize_partial.

(** ** What is accepted and wrong *)
(** The type keeps the static shape of the input, whatever the sizes. *)
Theorem C72_shape_refuted : forall (value : arg -> option cval) (opset : N) (n : rnode) (t : tensor_type) (q : request) (w : want) (dyn : option rval) (axes : list axis) (X : rt),
  11 <= opset -> resize_node value n t w dyn -> resize_options n q -> asks w (tshape X) axes -> tt_rank t = N.of_nat (length (tshape X)) ->
  tt_shape t = Some (map Some (tshape X)) -> Exists (fun a => a_out a <> a_in a) axes ->
  exists u, infer_resize value opset n = IOk (TensorT u) /\ tt_shape u <> Some (map Some (tshape (onnx_resize q axes X))).
Proof.
  intros value opset n t q w dyn axes X Ho Hn Hq Ha Hr Ht He. destruct (asks_ok _ _ _ Ha) as (b & ch & Es & W & _). rewrite <- Hr in W. exists t. split; [exact (infer_ok _ _ _ _ _ _ _ Ho Hn Hq W)|].
  rewrite Ht. unfold onnx_resize. rewrite Es. cbn [tshape mk map]. intros E. injection E as E. clear - He E. induction He as [a axes Na|a axes _ IH]; cbn [map] in E; injection E as E1 E2; [congruence|auto].
Qed.
Print Assumptions C72_shape_refuted.
(** With sizes or scales in the model, other ranks than 3 and 4 are accepted and the code
    does not compile. *)
Theorem C72_rank_refuted : forall (value : arg -> option cval) (opset : N) (n : rnode) (t : tensor_type) (q : request) (w : want) (axes : list axis) (X : rt),
  11 <= opset -> resize_node value n t w None -> resize_options n q -> asks w (tshape X) axes -> tt_rank t = N.of_nat (length (tshape X)) ->
  length (tshape X) <> 3%nat -> length (tshape X) <> 4%nat ->
  exists c, resize_config value opset n = IOk c /\ infer_resize value opset n = IOk (TensorT t) /\ gen_resize c n = None.
Proof.
  intros value opset n t q w axes X Ho Hn Hq Ha Hr N3 N4. destruct (asks_ok _ _ _ Ha) as (b & ch & Es & W & _). rewrite <- Hr in W.
  eexists. split; [exact (config_ok _ _ _ _ _ _ _ Ho Hn Hq W)|]. split; [exact (infer_ok _ _ _ _ _ _ _ Ho Hn Hq W)|]. destruct Hn as (x & roi & rest & Ei & Ex & _). unfold gen_resize. rewrite Ei, Ex.
  assert (R : (tt_rank t =? 3) || (tt_rank t =? 4) = false) by lia. destruct w; cbn [rc_sizes rc_scales conf_sizes conf_scales]; rewrite R; reflexivity.
Qed.
Print Assumptions C72_rank_refuted.
(** With sizes or scales at run time, the same for every rank but 4. *)
Theorem C72_runtime_rank_refuted : forall (value : arg -> option cval) (opset : N) (n : rnode) (t : tensor_type) (q : request) (w : want) (v : rval) (axes : list axis) (X : rt),
  11 <= opset -> resize_node value n t w (Some v) -> resize_options n q -> asks w (tshape X) axes -> tt_rank t = N.of_nat (length (tshape X)) ->
  length (tshape X) <> 4%nat ->
  exists c code, resize_config value opset n = IOk c /\ infer_resize value opset n = IOk (TensorT t) /\ gen_resize c n = Some code /\ run_resize code (Some v) X = None.
Proof.
  intros value opset n t q w v axes X Ho Hn Hq Ha Hr N4. destruct (asks_ok _ _ _ Ha) as (b & ch & Es & W & _). rewrite <- Hr in W.
  pose proof (config_ok _ _ _ _ _ _ _ Ho Hn Hq W) as C. pose proof (infer_ok _ _ _ _ _ _ _ Ho Hn Hq W) as I. destruct Hn as (x & roi & rest & Ei & Ex & _ & Hw). eexists.
  assert (R : forall c, (exists s m al, c = CSizes s m al \/ c = CScales s m al) -> run_resize c (Some v) X = None).
  { intros c (s & m & al & [-> | ->]); cbn [run_resize]; destruct (tshape X) as [|? [|? [|? [|? [|? ?]]]]]; try reflexivity; contradiction N4; reflexivity. }
  unfold gen_resize. rewrite Ei, Ex. destruct w as [l|l].
  - destruct Hw as (e & a & -> & _ & _ & _ & _ & Ht). destruct v; destruct Ht as (k & Ht); eexists; (split; [exact C|]); (split; [exact I|]); cbn [rc_sizes rc_scales conf_sizes conf_scales nth_error option_map]; rewrite Ht; (split; [reflexivity|]); apply R; eauto.
  - destruct Hw as (a & more & -> & (_ & _ & _ & Ht) & _). destruct v; destruct Ht as (k & Ht); eexists; (split; [exact C|]); (split; [exact I|]); cbn [rc_sizes rc_scales conf_sizes conf_scales nth_error option_map]; rewrite Ht; (split; [reflexivity|]); apply R; eauto.
Qed.
Print Assumptions C72_runtime_rank_refuted.

(** ** What is refused although valid *)
(** Without [mode], which is [nearest] in ONNX, the import panics or stops. *)
Theorem C72_no_mode_refused : forall (value : arg -> option cval) (opset : N) (n : rnode) (ty : argty), get_attr n "mode" = None -> infer_resize value opset n <> IOk ty.
Proof.
  intros value opset n ty Hm E. unfold infer_resize in E.
  assert (C : forall c, resize_config value opset n <> IOk c).
  { intros c. unfold resize_config. rewrite Hm. destruct (ninputs n) as [|x l]; [discriminate|]. destruct (aty x); try discriminate. cbn [ibind].
    destruct (str_attr n "coordinate_transformation_mode" _); try discriminate. destruct (str_attr n "nearest_mode" _); try discriminate. cbn [ibind].
    destruct (match get_attr n "cubic_coeff_a" with None | Some (AFloat _) => IOk tt | Some _ => IPanic end); try discriminate. cbn [ibind].
    destruct (scales_input _ _ _ _); try discriminate. cbn [ibind]. match goal with |- ibind ?a _ <> _ => destruct a; discriminate end. }
  destruct (resize_config value opset n) as [c| |] eqn:Ec; [exact (C c eq_refl)| |]; revert E;
    repeat match goal with |- ibind ?a _ = _ -> _ => destruct a; cbn [ibind]; try discriminate end.
Qed.
Print Assumptions C72_no_mode_refused.
(** A region of interest in the model stops the import, although it only matters for
    [tf_crop_and_resize]. *)
Theorem C72_roi_refused : forall (value : arg -> option cval) (opset : N) (n : rnode) (ty : argty) (roi : arg) (r : R) (l : list R),
  11 <= opset -> nth_error (ninputs n) 1 = Some roi -> value roi = Some (CF (r :: l)) -> infer_resize value opset n <> IOk ty.
Proof.
  intros value opset n ty roi r l Ho Er Ev. unfold infer_resize. rewrite Er, Ev. replace (11 <=? opset) with true by lia.
  repeat match goal with |- ibind ?a _ <> _ => destruct a; cbn [ibind]; try discriminate end.
Qed.
Print Assumptions C72_roi_refused.

(** Options that would change the result and are not implemented stop the import. *)
Theorem C72_options_refused : forall (value : arg -> option cval) (opset : N) (n : rnode) (ty : argty), infer_resize value opset n = IOk ty ->
  get_attr n "axes" = None /\ (forall z, get_attr n "antialias" = Some (AInt z) -> z = 0%Z) /\ (forall z, get_attr n "exclude_outside" = Some (AInt z) -> z = 0%Z) /\
  (forall s, get_attr n "keep_aspect_ratio_policy" = Some (AString s) -> lower s = "stretch"%string).
Proof.
  intros value opset n ty E. unfold infer_resize, checked in E.
  destruct (get_attr n "antialias") as [a1|]; [destruct (int_zero a1) as [[|]| |] eqn:E1; try discriminate E|]; cbn [ibind] in E;
  (destruct (get_attr n "axes"); [discriminate E|]); cbn [ibind] in E;
  (destruct (get_attr n "exclude_outside") as [a2|]; [destruct (int_zero a2) as [[|]| |] eqn:E2; try discriminate E|]); cbn [ibind] in E;
  (destruct (get_attr n "extrapolation_value") as [a3|]; [destruct (float_zero a3) as [[|]| |]; try discriminate E|]); cbn [ibind] in E;
  (destruct (get_attr n "keep_aspect_ratio_policy") as [a4|]; [destruct (is_stretch a4) as [[|]| |] eqn:E4; try discriminate E|]);
  clear E; (split; [reflexivity|]); repeat split; intros z H; try discriminate H; injection H as ->;
  first [ cbn in E1; injection E1; intros; apply Z.eqb_eq; assumption
        | cbn in E2; injection E2; intros; apply Z.eqb_eq; assumption
        | cbn in E4; injection E4; intros; apply String.eqb_eq; assumption ].
Qed.
Print Assumptions C72_options_refused.
(** The case of the letters of the mode does not matter. *)
Theorem C72_mode_case : forall (value : arg -> option cval) (opset : N) (n m : rnode) (s s' : string),
  ninputs n = ninputs m -> (forall key, key <> "mode"%string -> get_attr n key = get_attr m key) ->
  get_attr n "mode" = Some (AString s) -> get_attr m "mode" = Some (AString s') -> lower s = lower s' ->
  resize_config value opset n = resize_config value opset m /\ infer_resize value opset n = infer_resize value opset m.
Proof.
  intros value opset n m s s' Hi Ha Hn Hm Hs.
  assert (Hc : resize_config value opset n = resize_config value opset m).
  { unfold resize_config, str_attr, scales_input, sizes_input. rewrite Hi, Hn, Hm. unfold parse_mode. rewrite Hs, !Ha by discriminate. reflexivity. }
  split; [exact Hc|]. unfold infer_resize, checked. rewrite Hc, Hi, !Ha by discriminate. reflexivity.
Qed.
Print Assumptions C72_mode_case.
(** Before version 11 the scales are the second input, and there are no sizes. *)
Theorem C72_old_scales : forall (value : arg -> option cval) (opset : N) (n : rnode) (x sc : arg) (t u : tensor_type) (m : rmode) (l : list R),
  opset < 11 -> ninputs n = [x; sc] -> aty x = TensorT t -> aty sc = TensorT u -> is_optional sc = false -> value sc = Some (CF l) ->
  l <> [] -> N.of_nat (length l) = tt_rank t -> get_attr n "mode" = Some (AString (mode_name m)) -> (forall key, key <> "mode"%string -> get_attr n key = None) ->
  infer_resize value opset n = IOk (aty x) /\
  exists c, resize_config value opset n = IOk c /\ rc_mode c = m /\ rc_scales c = Some (Static (skipn 2 l)) /\ rc_sizes c = None /\ rc_coord c = "asymmetric"%string.
Proof.
  intros value opset n x sc t u m l Ho Hi Hx Hsc Hopt Hv Hl Hr Hm Ha.
  assert (Hc : resize_config value opset n = IOk (mkRC m (Some (Static (skipn 2 l))) None "asymmetric")).
  { unfold resize_config, str_attr, scales_input. rewrite Hi, Hx, Hm, !Ha by discriminate. replace (opset <? 11) with true by lia.
    replace (parse_mode (mode_name m)) with (Some m) by (destruct m; reflexivity). cbn [ibind nth_error]. rewrite Hopt, Hsc, Hv.
    destruct l as [|r l]; [congruence|]. cbn [length Nat.eqb] in *. rewrite Hr, N.eqb_refl. reflexivity. }
  split.
  - unfold infer_resize, checked. rewrite Hc, Hi, !Ha by discriminate. replace (11 <=? opset) with false by lia. reflexivity.
  - eexists. split; [exact Hc|]. repeat split; reflexivity.
Qed.
Print Assumptions C72_old_scales.

(** Neither scales nor sizes: the import stops. *)
Theorem C72_no_target_refused : forall (value : arg -> option cval) (opset : N) (n : rnode) (ty : argty), 11 <= opset ->
  (forall i a, i = 2%nat \/ i = 3%nat -> nth_error (ninputs n) i = Some a -> is_optional a = true) -> infer_resize value opset n <> IOk ty.
Proof.
  intros value opset n ty Ho Hi E. unfold infer_resize in E.
  assert (C : forall c, resize_config value opset n = IOk c -> rc_scales c = None /\ rc_sizes c = None).
  { intros c. unfold resize_config. replace (opset <? 11) with false by lia.
    assert (H2 : forall r, scales_input value n r 2 = IOk None).
    { intros r. unfold scales_input. destruct (nth_error (ninputs n) 2) as [a|] eqn:E2; [|reflexivity]. rewrite (Hi 2%nat a (or_introl eq_refl) E2). reflexivity. }
    assert (H3 : forall r, sizes_input value n r 3 = IOk None).
    { intros r. unfold sizes_input. destruct (nth_error (ninputs n) 3) as [a|] eqn:E3; [|reflexivity]. rewrite (Hi 3%nat a (or_intror eq_refl) E3). reflexivity. }
    destruct (ninputs n) as [|x l]; [discriminate|]. destruct (aty x); try discriminate.
    destruct (match get_attr n "mode" with None => IOk None | Some (AString s) => match parse_mode s with Some m => IOk (Some m) | None => IErr end | Some _ => IPanic end) as [m| |]; try discriminate.
    destruct (str_attr n "coordinate_transformation_mode" _) as [co| |]; try discriminate. destruct (str_attr n "nearest_mode" _); try discriminate. cbn [ibind].
    destruct (match get_attr n "cubic_coeff_a" with None | Some (AFloat _) => IOk tt | Some _ => IPanic end); try discriminate. cbn [ibind].
    rewrite H2. cbn [ibind]. rewrite H3. cbn [ibind]. destruct m; [|discriminate]. intros H. injection H as <-. split; reflexivity. }
  destruct (resize_config value opset n) as [c| |] eqn:Ec; [destruct (C c eq_refl) as [Cs Cz]; rewrite Cs, Cz in E| |]; revert E;
    repeat match goal with |- ibind ?a _ = _ -> _ => destruct a; cbn [ibind]; try discriminate end.
Qed.
Print Assumptions C72_no_target_refused.

(** ** Witnesses *)
Local Open Scope string_scope.
Definition ex_arg (s : string) (ty : argty) : arg := mkArg s ty VDynamic.
Definition ex_none : arg := mkArg "" (TensorT (mkTT F32 1 None)) VOptional.
Definition ex_tt (r : N) : tensor_type := mkTT F32 r None.
Definition ex_n (r : N) (w : want) (attrs : list (string * attr)) : rnode :=
  mkNode "Resize" "resize1"
    (ex_arg "x" (TensorT (ex_tt r)) :: ex_none ::
     match w with BySizes _ => [ex_none; ex_arg "sizes" (TensorT (mkTT I64 1 None))] | ByScales _ => [ex_arg "scales" (TensorT (mkTT F32 1 None))] end)
    [ex_arg "y" (TensorT (ex_tt r))] attrs.
Definition ex_v (w : want) (a : arg) : option cval := if String.eqb (aname a) "sizes" || String.eqb (aname a) "scales" then Some (fixed w) else None.
Lemma ex_node r w attrs : resize_node (ex_v w) (ex_n r w attrs) (ex_tt r) w None.
Proof.
  destruct w as [l|l]; do 3 eexists; (split; [reflexivity|]); (split; [reflexivity|]); (split; [left; reflexivity|]).
  - do 2 eexists. split; [reflexivity|]. split; [left; reflexivity|]. split; [discriminate|]. split; [eexists; reflexivity|reflexivity].
  - do 2 eexists. split; [reflexivity|]. split; [|left; reflexivity]. split; [discriminate|]. split; [eexists; reflexivity|reflexivity].
Qed.
Definition ex_run (v : arg -> option cval) (p : option rval) (n : rnode) (x : rt) : option rt :=
  match resize_config v 13 n with IOk c => match gen_resize c n with Some code => run_resize code p x | None => None end | _ => None end.
(** For one axis and sizes or scales in the model. *)
Lemma ex_axis q w attrs l a (X : rt) x : resize_options (ex_n 3 w attrs) q -> tshape X = [1; 1; l] -> asks w [1; 1; l] [a] -> x < a_out a ->
  exists Y, ex_run (ex_v w) None (ex_n 3 w attrs) X = Some Y /\ tshape Y = [1; 1; a_out a] /\
    rd Y [0; 0; x] = weigh (b_taps (q_mode q) (align_of q) l (a_out a) x) (fun i => rd X [0; 0; i]) /\
    rd (onnx_resize q [a] X) [0; 0; x] = weigh (taps q a x) (fun i => rd X [0; 0; i]).
Proof.
  intros Hq Es Ha Hx. rewrite <- Es in Ha. destruct (code_ok (ex_v w) 13 (ex_n 3 w attrs) (ex_tt 3) q w None [a] X) as (c & code & C & _ & G & E); try assumption; try lia.
  - apply ex_node.
  - rewrite Es. reflexivity.
  - rewrite Es. right. split; reflexivity.
  - unfold ex_run. rewrite C, G, E. destruct (rd_burn (q_mode q) (align_of q) l (a_out a) X x Es Hx) as (Y & E1 & E2 & E3). exists Y. split; [exact E1|]. split; [exact E2|]. split; [exact E3|]. apply (rd_onnx q a l X x Es Hx).
Qed.
Lemma asks_sizes l o : o < 2 ^ 63 -> asks (BySizes [1; 1; o]) [1; 1; l] [mkAx l o (r_of o / r_of l)].
Proof. intros H. exists 1, 1, [l]. split; [reflexivity|]. exists [o]. split; [reflexivity|]. split; [reflexivity|]. split; [|reflexivity]. repeat constructor; assumption || lia. Qed.
Ltac options := split; [reflexivity|]; split; [reflexivity|]; split; [reflexivity|]; split; [reflexivity|]; repeat split.
Definition ex_of (l : list R) : rt := mkT [1; 1; N.of_nat (length l)] l.

(** The default of [nearest]: making three points one takes the middle one in ONNX, and the
    code takes the first. *)
Theorem C72_nearest_refuted : exists (q : request) (a : axis) (w : want) (n : rnode) (X Y : rt),
  resize_node (ex_v w) n (ex_tt 3) w None /\ resize_options n q /\ q_mode q = Nearest /\ q_coord q = "half_pixel" /\ q_round q = "round_prefer_floor" /\ asks w (tshape X) [a] /\
  ex_run (ex_v w) None n X = Some Y /\ rd Y [0%N; 0%N; 0%N] = 10%R /\ rd (onnx_resize q [a] X) [0%N; 0%N; 0%N] = 20%R.
Proof.
  set (q := mkReq Nearest "half_pixel" "round_prefer_floor" (-3 / 4)). set (w := BySizes [1; 1; 1]). set (X := ex_of [10; 20; 30]%R). set (a := mkAx 3 1 (r_of 1 / r_of 3)).
  assert (Hq : resize_options (ex_n 3 w [("mode", AString "nearest")]) q) by options.
  destruct (ex_axis q w [("mode", AString "nearest")] 3 a X 0 Hq eq_refl) as (Y & E1 & _ & E2 & E3); [apply asks_sizes; lia|cbn; lia|].
  exists q, a, w, (ex_n 3 w [("mode", AString "nearest")]), X, Y. split; [apply ex_node|]. split; [exact Hq|]. do 3 (split; [reflexivity|]). split; [apply asks_sizes; lia|]. split; [exact E1|]. split.
  - rewrite E2. unfold weigh, rd, get, X, ex_of; cbn; try unfold Pos.to_nat; cbn; lra.
  - rewrite E3. unfold taps. cbn [q_mode q]. unfold original, rounded. cbn [q_coord q_round q String.eqb Ascii.eqb Bool.eqb]. unfold half_pixel, rceil. cbn [a_scale a].
    replace (- ((r_of 0 + / 2) / (r_of 1 / r_of 3) - / 2 - / 2))%R with (- / 2)%R by (unfold r_of; cbn [Z.of_N]; field).
    replace (Int_part (- / 2)) with (-1)%Z by (symmetry; apply (rfloor_unique (- / 2) (-1)); lra). unfold weigh, rd, get, X, ex_of; cbn; try unfold Pos.to_nat; cbn; lra.
Qed.
Print Assumptions C72_nearest_refuted.
(** [linear] with [asymmetric]: the code uses the coordinates of [half_pixel]. *)
Theorem C72_asymmetric_refuted : exists (q : request) (a : axis) (w : want) (n : rnode) (X Y : rt),
  resize_node (ex_v w) n (ex_tt 3) w None /\ resize_options n q /\ q_mode q = Linear /\ q_coord q = "asymmetric" /\ asks w (tshape X) [a] /\
  ex_run (ex_v w) None n X = Some Y /\ rd Y [0%N; 0%N; 1%N] = (/ 4)%R /\ rd (onnx_resize q [a] X) [0%N; 0%N; 1%N] = (/ 2)%R.
Proof.
  set (q := mkReq Linear "asymmetric" "round_prefer_floor" (-3 / 4)). set (w := BySizes [1; 1; 4]). set (X := ex_of [0; 1]%R). set (a := mkAx 2 4 (r_of 4 / r_of 2)).
  set (at_ := [("mode", AString "linear"); ("coordinate_transformation_mode", AString "asymmetric")]).
  assert (Hq : resize_options (ex_n 3 w at_) q) by options.
  destruct (ex_axis q w at_ 2 a X 1 Hq eq_refl) as (Y & E1 & _ & E2 & E3); [apply asks_sizes; lia|cbn; lia|].
  exists q, a, w, (ex_n 3 w at_), X, Y. split; [apply ex_node|]. split; [exact Hq|]. do 2 (split; [reflexivity|]). split; [apply asks_sizes; lia|]. split; [exact E1|]. split.
  - rewrite E2. unfold b_taps, b_point, align_of. cbn [q_mode q q_coord String.eqb Ascii.eqb Bool.eqb a_out a].
    replace ((r_of 1 + / 2) * r_of 2 / r_of 4 - / 2)%R with (/ 4)%R by (unfold r_of; cbn [Z.of_N]; field). rewrite Rmax_right by lra.
    replace (rfloor (/ 4)) with 0%Z by (symmetry; apply rfloor_unique; lra). unfold weigh, rd, get, X, ex_of; cbn; try unfold Pos.to_nat; cbn; lra.
  - rewrite E3. unfold taps, original. cbn [q_mode q_coord q String.eqb Ascii.eqb Bool.eqb a_scale a].
    replace (r_of 1 / (r_of 4 / r_of 2))%R with (/ 2)%R by (unfold r_of; cbn [Z.of_N]; field).
    replace (rfloor (/ 2)) with 0%Z by (symmetry; apply rfloor_unique; lra). unfold weigh, rd, get, X, ex_of; cbn; try unfold Pos.to_nat; cbn; lra.
Qed.
Print Assumptions C72_asymmetric_refuted.
(** A scale of one and a half makes three points four: ONNX uses the scale, the code the ratio
    of the sizes. *)
Theorem C72_scale_refuted : exists (q : request) (a : axis) (w : want) (n : rnode) (X Y : rt),
  resize_node (ex_v w) n (ex_tt 3) w None /\ resize_options n q /\ q_mode q = Linear /\ q_coord q = "half_pixel" /\ w = ByScales [1; 1; 3 / 2]%R /\ asks w (tshape X) [a] /\
  ex_run (ex_v w) None n X = Some Y /\ rd Y [0%N; 0%N; 1%N] = (5 / 8)%R /\ rd (onnx_resize q [a] X) [0%N; 0%N; 1%N] = (/ 2)%R.
Proof.
  set (q := mkReq Linear "half_pixel" "round_prefer_floor" (-3 / 4)). set (w := ByScales [1; 1; 3 / 2]%R). set (X := ex_of [0; 1; 1]%R).
  set (a := mkAx 3 4 (3 / 2)). set (at_ := [("mode", AString "linear")]).
  assert (Ha : asks w [1; 1; 3]%N [a]).
  { exists 1, 1, [3]. split; [reflexivity|]. exists [(3 / 2)%R]. split; [reflexivity|]. split; [reflexivity|]. cbn [combine map fst snd]. unfold axis_of_scale.
    replace (rfloor (r_of 3 * (3 / 2))) with 4%Z by (symmetry; apply rfloor_unique; unfold r_of; cbn [Z.of_N]; lra). reflexivity. }
  assert (Hq : resize_options (ex_n 3 w at_) q) by options.
  destruct (ex_axis q w at_ 3 a X 1 Hq eq_refl Ha) as (Y & E1 & _ & E2 & E3); [cbn; lia|].
  exists q, a, w, (ex_n 3 w at_), X, Y. split; [apply ex_node|]. split; [exact Hq|]. do 3 (split; [reflexivity|]). split; [exact Ha|]. split; [exact E1|]. split.
  - rewrite E2. unfold b_taps, b_point, align_of. cbn [q_mode q q_coord String.eqb Ascii.eqb Bool.eqb a_out a].
    replace ((r_of 1 + / 2) * r_of 3 / r_of 4 - / 2)%R with (5 / 8)%R by (unfold r_of; cbn [Z.of_N]; field). rewrite Rmax_right by lra.
    replace (rfloor (5 / 8)) with 0%Z by (symmetry; apply rfloor_unique; lra). unfold weigh, rd, get, X, ex_of; cbn; try unfold Pos.to_nat; cbn; lra.
  - rewrite E3. unfold taps, original, half_pixel. cbn [q_mode q_coord q String.eqb Ascii.eqb Bool.eqb a_scale a].
    replace ((r_of 1 + / 2) / (3 / 2) - / 2)%R with (/ 2)%R by (unfold r_of; cbn [Z.of_N]; field).
    replace (rfloor (/ 2)) with 0%Z by (symmetry; apply rfloor_unique; lra). unfold weigh, rd, get, X, ex_of; cbn; try unfold Pos.to_nat; cbn; lra.
Qed.
Print Assumptions C72_scale_refuted.
Lemma half_bits : f32_real 3204448256 = (- / 2)%R.
Proof.
  unfold f32_real. lazy -[Rplus Rmult Rdiv Rinv IZR powerRZ Z.sub Ropp].
  replace (powerRZ 2 (126 - 150)) with (/ 16777216)%R; [field|]. change (126 - 150)%Z with (-24)%Z. unfold powerRZ. f_equal. change (Pos.to_nat 24) with 24%nat. cbn [pow]. ring.
Qed.
(** The coefficient of [cubic] is read and not used. *)
Theorem C72_cubic_refuted : exists (q : request) (a : axis) (w : want) (n : rnode) (X Y : rt),
  resize_node (ex_v w) n (ex_tt 3) w None /\ resize_options n q /\ q_mode q = Cubic /\ q_coord q = "half_pixel" /\ q_a q = (- / 2)%R /\ asks w (tshape X) [a] /\
  ex_run (ex_v w) None n X = Some Y /\ rd Y [0%N; 0%N; 0%N] = (- 27 / 256)%R /\ rd (onnx_resize q [a] X) [0%N; 0%N; 0%N] = (- 18 / 256)%R.
Proof.
  set (w := BySizes [1; 1; 4]). set (X := ex_of [0; 1]%R). set (a := mkAx 2 4 (r_of 4 / r_of 2)).
  set (at_ := [("mode", AString "cubic"); ("cubic_coeff_a", AFloat 3204448256)]).
  assert (F : f32_real 3204448256 = (- / 2)%R) by exact half_bits.
  set (q := mkReq Cubic "half_pixel" "round_prefer_floor" (f32_real 3204448256)).
  assert (Hq : resize_options (ex_n 3 w at_) q) by options.
  destruct (ex_axis q w at_ 2 a X 0 Hq eq_refl) as (Y & E1 & _ & E2 & E3); [apply asks_sizes; lia|cbn; lia|].
  exists q, a, w, (ex_n 3 w at_), X, Y. split; [apply ex_node|]. split; [exact Hq|]. do 2 (split; [reflexivity|]). split; [exact F|]. split; [apply asks_sizes; lia|]. split; [exact E1|]. split.
  - rewrite E2. unfold b_taps, b_point, align_of. cbn [q_mode q q_coord String.eqb Ascii.eqb Bool.eqb a_out a].
    replace ((r_of 0 + / 2) * r_of 2 / r_of 4 - / 2)%R with (- / 4)%R by (unfold r_of; cbn [Z.of_N]; field).
    replace (rfloor (- / 4)) with (-1)%Z by (symmetry; apply rfloor_unique; lra). unfold weigh, rd, get, X, ex_of; cbn; try unfold Pos.to_nat; cbn; lra.
  - rewrite E3. unfold taps, original, half_pixel. cbn [q_mode q_coord q_a q String.eqb Ascii.eqb Bool.eqb a_scale a]. rewrite F.
    replace ((r_of 0 + / 2) / (r_of 4 / r_of 2) - / 2)%R with (- / 4)%R by (unfold r_of; cbn [Z.of_N]; field).
    replace (rfloor (- / 4)) with (-1)%Z by (symmetry; apply rfloor_unique; lra). unfold weigh, rd, get, X, ex_of; cbn; try unfold Pos.to_nat; cbn; lra.
Qed.
Print Assumptions C72_cubic_refuted.
(** The entries of the sizes for images and channels are dropped: one image stays one when two
    are asked for. *)
Theorem C72_images_refuted : forall (b c b' c' h w h' w' : N) (m : rmode) (X : rt),
  tshape X = [b; c; h; w] -> Forall (fun d => d < 2 ^ 63) [b'; c'; h'; w'] ->
  exists Y, ex_run (ex_v (BySizes [b'; c'; h'; w'])) None (ex_n 4 (BySizes [b'; c'; h'; w']) [("mode", AString (mode_name m))]) X = Some Y /\ tshape Y = [b; c; h'; w'].
Proof.
  intros b c b' c' h w h' w' m X Es U. pose proof (usize_map _ U) as E. cbn [map] in E. injection E as E1 E2 E3 E4. unfold ex_run.
  assert (C : resize_config (ex_v (BySizes [b'; c'; h'; w'])) 13 (ex_n 4 (BySizes [b'; c'; h'; w']) [("mode", AString (mode_name m))]) = IOk (mkRC m None (Some (Static [to_usize (Z.of_N h'); to_usize (Z.of_N w')])) "half_pixel")) by (destruct m; reflexivity).
  rewrite C. cbn [gen_resize ex_n ninputs aty ex_arg ex_tt tt_rank N.eqb Pos.eqb orb rc_sizes rc_scales rc_mode rc_coord length Nat.leb firstn run_resize]. rewrite E3, E4. unfold b_interpolate. rewrite Es. eexists. split; reflexivity.
Qed.
Print Assumptions C72_images_refuted.

(** ** Examples of what is covered *)
Definition ex_x : rt := mkT [1; 1; 2; 3] [1; 2; 3; 4; 5; 6]%R.
(** Doubling both axes of two rows of three, for every mode. *)
Example ex_covered m : exists q axes, resize_options (ex_n 4 (BySizes [1; 1; 4; 6]) [("mode", AString (mode_name m))]) q /\ asks (BySizes [1; 1; 4; 6]) (tshape ex_x) axes /\ Forall (supported q) axes /\
  length (tshape ex_x) = 4%nat /\ Exists (fun a => a_out a <> a_in a) axes.
Proof.
  exists (mkReq m "half_pixel" "round_prefer_floor" (-3 / 4)), [mkAx 2 4 (r_of 4 / r_of 2); mkAx 3 6 (r_of 6 / r_of 3)]. split; [options|]. split.
  - exists 1, 1, [2; 3]. split; [reflexivity|]. exists [4; 6]. split; [reflexivity|]. split; [reflexivity|]. split; [|reflexivity]. repeat constructor.
  - split; [|split; [reflexivity|left; cbn; discriminate]]. repeat (apply Forall_cons; [|]); [| |apply Forall_nil]; (split; [cbn; lia|]); (split; [cbn; lia|]); (split; [reflexivity|]); destruct m; cbn [q_mode]; unfold spread; cbn [q_coord q_round q_a a_in a_out]; auto.
    + right. split; [reflexivity|]. split; [left; reflexivity|]. exists 2. reflexivity.
    + right. split; [reflexivity|]. split; [left; reflexivity|]. exists 2. reflexivity.
Qed.
(** With the sizes at run time. *)
Example ex_runtime : resize_node (fun _ => None) (ex_n 4 (BySizes [1; 1; 4; 6]) [("mode", AString "linear")]) (ex_tt 4) (BySizes [1; 1; 4; 6]) (Some (VInts [1; 1; 4; 6]%Z)).
Proof.
  do 3 eexists. split; [reflexivity|]. split; [reflexivity|]. split; [left; reflexivity|]. do 2 eexists. split; [reflexivity|]. split; [left; reflexivity|]. split; [discriminate|]. split; [reflexivity|]. split; [reflexivity|]. eexists. reflexivity.
Qed.

(** A node of version 10 that meets the hypotheses of [C72_old_scales]. *)
Definition ex_old : rnode := mkNode "Resize" "resize1" [ex_arg "x" (TensorT (ex_tt 4)); ex_arg "scales" (TensorT (mkTT F32 1 None))] [ex_arg "y" (TensorT (ex_tt 4))] [("mode", AString "linear")].
Example ex_old_scales : infer_resize (fun _ => Some (CF [1; 1; 2; 2]%R)) 10 ex_old = IOk (TensorT (ex_tt 4)).
Proof.
  refine (proj1 (C72_old_scales _ 10 ex_old _ _ _ _ Linear [1; 1; 2; 2]%R _ eq_refl eq_refl eq_refl eq_refl eq_refl _ eq_refl eq_refl _)).
  - lia.
  - discriminate.
  - intros key Hk. unfold get_attr, ex_old. cbn [nattrs sget]. apply String.eqb_neq in Hk. rewrite ?Hk. rewrite String.eqb_sym in Hk. rewrite ?Hk. reflexivity.
Qed.
(** Another spelling of the mode. *)
Example ex_case : infer_resize (ex_v (BySizes [1; 1; 4; 6])) 13 (ex_n 4 (BySizes [1; 1; 4; 6]) [("mode", AString "Linear")]) = IOk (TensorT (ex_tt 4)).
Proof. reflexivity. Qed.
