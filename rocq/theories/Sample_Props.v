(** Random tensors and GridSample are what ONNX prescribes (C74). *)
From Coq Require Import Lia ZifyBool ZifyNat ZifyN.
From Verif Require Import Sample_Model Tensor_Proofs Names_Model Fold_Model Conv_Spec Conv_Proofs.
Import Tensor_Spec.
Local Open Scope N_scope.

Lemma number_read {T} (num : N -> T) n key d v : number_attr num n key d v -> number_or num n key d = IOk v.
Proof. unfold number_attr, number_or. destruct (get_attr n key) as [[]|]; try contradiction; congruence. Qed.
Lemma normal_read {T} (num : N -> T) zero one n d : normal_attrs num zero one n d -> normal_config num zero one n = IOk d.
Proof. intros (m & s & -> & H1 & H2). unfold normal_config. rewrite (number_read _ _ _ _ _ H1). cbn [ibind]. rewrite (number_read _ _ _ _ _ H2). reflexivity. Qed.
Lemma uniform_read {T} (num : N -> T) zero one n d : uniform_attrs num zero one n d -> uniform_config num zero one n = IOk d.
Proof. intros (m & s & -> & H1 & H2). unfold uniform_config. rewrite (number_read _ _ _ _ _ H1). cbn [ibind]. rewrite (number_read _ _ _ _ _ H2). reflexivity. Qed.
Lemma code_read n t0 ty : type_attr n t0 ty -> (data_type n = IOk None /\ get_attr n "dtype" = None /\ ty = t0) \/ (data_type n = IOk (Some (code_of ty)) /\ get_attr n "dtype" <> None).
Proof.
  intros H. unfold type_attr in H. unfold data_type. destruct (get_attr n "dtype") as [[]|]; try contradiction; [right|left; auto]. subst z. split; [|discriminate]. destruct ty; reflexivity.
Qed.

(** The distribution the node of this type asks for. *)
Definition asks {T} (num : N -> T) (zero one : T) (like : bool) (n : rnode) (d : dist T) : Prop :=
  (ntype n = (if like then "RandomNormalLike" else "RandomNormal")%string /\ normal_attrs num zero one n d) \/
  (ntype n = (if like then "RandomUniformLike" else "RandomUniform")%string /\ uniform_attrs num zero one n d).
Lemma asks_read {T} (num : N -> T) zero one like n d : asks num zero one like n d -> random_config num zero one n = IOk d.
Proof.
  intros [[H1 H2]|[H1 H2]]; unfold random_config; rewrite H1; destruct like; cbn -[normal_config uniform_config]; try (apply normal_read; exact H2); apply uniform_read; exact H2.
Qed.

(** RandomNormal and RandomUniform draw as many numbers as the shape holds, from the
    distribution asked for; the inferred type has the rank and the element type asked for.
    Missing: an element type other than the backend's own (below), half precision (refused),
    and [seed], which is ignored. *)
Theorem C74_random_partial : forall (T : Type) (num : N -> T) (zero one : T) (source : dist T -> N -> T) less sampler (default_float : dtype) (e : string -> option (typed T)) (n : rnode) (d : dist T) (s : list N) (ty : dtype),
  asks num zero one false n d -> get_attr n "shape" = Some (AInts (map Z.of_N s)) -> i64_nats s -> type_attr n F32 ty -> ty = F32 \/ ty = F64 ->
  random_infer n = IOk (TensorT (mkTT ty (N.of_nat (length s)) None)) /\
  exists c, random_forward num zero one n = IOk c /\
    (ty = default_float -> run_code zero one source less sampler default_float e c = Some (Numbers (onnx_random source d ty s))).
Proof.
  intros T num zero one source less sampler df e n d s ty Ha Hs Is Ht Hty. split.
  - unfold random_infer, random_type. destruct (code_read n F32 ty Ht) as [(-> & _ & ->)|(-> & _)]; cbn [ibind]; rewrite Hs; cbn [attr_i64s ibind]; rewrite map_length; [reflexivity|].
    destruct Hty as [-> | ->]; reflexivity.
  - unfold random_forward. rewrite Hs. cbn [attr_i64s iexpect ibind]. rewrite (asks_read _ _ _ _ _ _ Ha). cbn [iexpect ibind]. rewrite map_to_usize by exact Is. eexists. split; [reflexivity|].
    intros ->. reflexivity.
Qed.
Print Assumptions C74_random_partial.

(** The same with the shape of the input; the type is inferred with its static shape. *)
Theorem C74_random_like_partial : forall (T : Type) (num : N -> T) (zero one : T) (source : dist T -> N -> T) less sampler (default_float : dtype) (e : string -> option (typed T)) (n : rnode) (x : arg) (t : tensor_type) (X : tensor T) (d : dist T) (ty : dtype),
  asks num zero one true n d -> ninputs n = [x] -> aty x = TensorT t -> e (aname x) = Some (tt_dtype t, X) -> fits (aty x) (tshape X) -> type_attr n (tt_dtype t) ty ->
  ty = F32 \/ ty = F64 \/ ty = F16 -> ty = tt_dtype t -> (get_attr n "dtype" = None -> ty = F32) ->
  (exists u, random_like_infer n = IOk (TensorT u) /\ tt_dtype u = ty /\ fits (TensorT u) (tshape X)) /\
  exists c, random_like_forward num zero one n = IOk c /\ run_code zero one source less sampler default_float e c = Some (Numbers (onnx_random source d ty (tshape X))).
Proof.
  intros T num zero one source less sampler df e n x t X d ty Ha Hn Hx He Hf Ht Hty Heq Hdef. split.
  - unfold random_like_infer, random_type. rewrite Hn, Hx. rewrite Hx in Hf. destruct Hf as [F1 F2].
    destruct (code_read n _ ty Ht) as [(-> & Hno & Et)|(-> & Hsome)]; cbn [ibind].
    + specialize (Hdef Hno). eexists. split; [reflexivity|]. split; [symmetry; exact Hdef|split; [exact F1|exact F2]].
    + destruct Hty as [-> | [-> | ->]]; cbn; eexists; (split; [reflexivity|]); (split; [reflexivity|split; [exact F1|exact F2]]).
  - unfold random_like_forward. rewrite (asks_read _ _ _ _ _ _ Ha). cbn [iexpect ibind]. rewrite Hn. eexists. split; [reflexivity|]. cbn [run_code]. rewrite He, Heq. reflexivity.
Qed.
Print Assumptions C74_random_like_partial.

Lemma bern_combine {T} (zero one : T) (source : dist T -> N -> T) less ps : forall i k, k = length ps ->
  map (fun up => less (fst up) (snd up)) (combine (map (source (Uniform zero one)) (map (fun j => N.of_nat j) (seq i k))) ps) = bern zero one source less ps (N.of_nat i).
Proof.
  induction ps as [|p ps IH]; intros i k ->; [reflexivity|]. cbn [length seq map combine bern fst snd]. f_equal. rewrite (IH (S i) _ eq_refl). f_equal. lia.
Qed.
(** Bernoulli, with the element types float, double, int32, int64 and bool or that of the
    input.  Missing: other element types (below) and [seed], which is ignored. *)
Theorem C74_bernoulli_partial : forall (T : Type) (zero one : T) (source : dist T -> N -> T) less sampler (default_float : dtype) (e : string -> option (typed T)) (n : rnode) (x : arg) (t : tensor_type) (P : tensor T) (ty : dtype),
  ninputs n = [x] -> aty x = TensorT t -> e (aname x) = Some (tt_dtype t, P) -> twf P -> fits (aty x) (tshape P) -> type_attr n (tt_dtype t) ty ->
  get_attr n "dtype" = None \/ In ty [F32; F64; I32; I64; BoolT] ->
  exists u c, bernoulli_infer n = IOk (TensorT u) /\ tt_dtype u = ty /\ fits (TensorT u) (tshape P) /\
    bernoulli_forward (T := T) n (TensorT u) = IOk c /\ run_code zero one source less sampler default_float e c = Some (Bits (onnx_bernoulli zero one source less ty P)).
Proof.
  intros T zero one source less sampler df e n x t P ty Hn Hx He Hw Hf Ht Hok. rewrite Hx in Hf.
  assert (E : bernoulli_infer n = IOk (TensorT (mkTT ty (tt_rank t) (tt_shape t)))).
  { unfold bernoulli_infer. rewrite Hn, Hx. destruct (code_read n _ ty Ht) as [(-> & _ & ->)|(-> & Hs)]; cbn [ibind]; [reflexivity|].
    destruct Hok as [Hno|Hok]; [contradiction|]. cbn in Hok. repeat (destruct Hok as [<-|Hok]; [reflexivity|]). destruct Hok. }
  exists (mkTT ty (tt_rank t) (tt_shape t)). eexists. split; [exact E|]. split; [reflexivity|]. split; [exact Hf|]. unfold bernoulli_forward. rewrite Hn. split; [reflexivity|].
  cbn [run_code tt_dtype]. rewrite He. unfold onnx_bernoulli. do 3 f_equal.
  - destruct ty; reflexivity.
  - f_equal. unfold upto. change 0 with (N.of_nat 0) at 1. apply bern_combine. unfold twf in Hw. lia.
Qed.
Print Assumptions C74_bernoulli_partial.

Lemma mode_read n m : mode_attr n m -> match get_attr n "mode" with None => IOk GLinear | Some (AString s) => parse_mode s | Some _ => IPanic end = IOk m.
Proof.
  unfold mode_attr. destruct (get_attr n "mode") as [[]|]; try contradiction; [|intros ->; reflexivity].
  intros H. cbn in H. repeat (destruct H as [[= <- <-]|H]; [reflexivity|]). destruct H.
Qed.
Lemma padding_read_ n p : padding_mode_attr n p -> match get_attr n "padding_mode" with None => IOk GZeros | Some (AString s) => parse_padding s | Some _ => IPanic end = IOk p.
Proof.
  unfold padding_mode_attr. destruct (get_attr n "padding_mode") as [[]|]; try contradiction; [|intros ->; reflexivity].
  intros H. cbn in H. repeat (destruct H as [[= <- <-]|H]; [reflexivity|]). destruct H.
Qed.
Lemma align_read n b : align_attr n b -> match get_attr n "align_corners" with None => IOk false | Some (AInt z) => IOk (negb (as_i32 z =? 0)%Z) | Some _ => IPanic end = IOk b.
Proof. unfold align_attr. destruct (get_attr n "align_corners") as [[]|]; try contradiction; [|intros ->; reflexivity]. intros [[-> ->]|[-> ->]]; reflexivity. Qed.

(** GridSample of images: the emitted call has the mode, the padding and the alignment of the
    attributes, whichever of the two spellings is used, and the two inputs in their order.
    Missing: more spatial axes (below). *)
Theorem C74_grid_sample_partial : forall (T : Type) (zero one : T) (source : dist T -> N -> T) less
    (sampler : gmode -> gpad -> bool -> N -> N -> (N -> N -> option T) -> T -> T -> option T) (default_float : dtype) (e : string -> option (typed T)) (opset : N) (n : rnode) (x g : arg) (t u : tensor_type) (X G : tensor T) (m : gmode) (p : gpad) (a : bool),
  ninputs n = [x; g] -> aty x = TensorT t -> aty g = TensorT u -> e (aname x) = Some (tt_dtype t, X) -> e (aname g) = Some (tt_dtype u, G) ->
  fits (aty x) (tshape X) -> fits (aty g) (tshape G) -> length (tshape X) = 4%nat -> length (tshape G) = 4%nat ->
  mode_attr n m -> padding_mode_attr n p -> align_attr n a ->
  grid_infer opset n = IOk (TensorT (mkTT (tt_dtype t) 4 None)) /\
  exists c, grid_forward (T := T) n = IOk c /\
    run_code zero one source less sampler default_float e c = option_map (fun r => Numbers (tt_dtype t, r)) (onnx_grid_sample sampler m p a X G).
Proof.
  intros T zero one source less sampler df e opset n x g t u X G m p a Hn Hx Hg EX EG FX FG LX LG Hm Hp Ha.
  assert (EC : grid_config n = IOk (m, p, a)).
  { unfold grid_config. rewrite (mode_read _ _ Hm). cbn [ibind]. rewrite (padding_read_ _ _ Hp). cbn [ibind]. rewrite (align_read _ _ Ha). reflexivity. }
  split.
  - unfold grid_infer. rewrite Hn, Hx, Hg, EC. rewrite Hx in FX. rewrite Hg in FG. destruct FX as [RX _]. destruct FG as [RG _]. rewrite LX in RX. rewrite LG in RG. rewrite <- RX, <- RG.
    change (N.of_nat 4) with 4. change (4 =? 4) with true. cbn [negb]. rewrite andb_false_r. cbn [ibind fst]. destruct m; reflexivity.
  - unfold grid_forward. rewrite EC. cbn [iexpect ibind fst snd]. rewrite Hn. eexists. split; [reflexivity|]. cbn [run_code]. rewrite EX, EG. unfold onnx_grid_sample.
    destruct (tshape X) as [|n0 [|c0 [|h [|w [|]]]]]; cbn [length] in LX; try lia. destruct (tshape G) as [|n1 [|oh [|ow [|two [|]]]]]; cbn [length] in LG; try lia.
    rewrite (N.eqb_sym n1 n0). destruct ((n0 =? n1) && (two =? 2)); reflexivity.
Qed.
Print Assumptions C74_grid_sample_partial.

(** ** Examples *)
Definition s_arg (x : string) (d : dtype) (s : list N) : arg := mkArg x (TensorT (mkTT d (N.of_nat (length s)) (Some (map Some s)))) VDynamic.
Definition s_num (b : N) : Z := Z.of_N b.
Definition s_source (d : dist Z) (i : N) : Z := match d with Normal m s => (m + s * (Z.of_N i mod 3 - 1))%Z | Uniform l h => (l + (Z.of_N i * 7) mod (h - l + 4))%Z end.
Definition r_node (ty : string) (ins : list arg) (attrs : list (string * attr)) : rnode := mkNode ty "r" ins [s_arg "y" F32 []] attrs.
Example C74_random_ex : let n := r_node "RandomNormal" [] [("shape"%string, AInts [2; 2]%Z); ("mean"%string, AFloat 5)] in
  asks s_num 0%Z 1%Z false n (Normal 5%Z 1%Z) /\ type_attr n F32 F32 /\
  exists c, random_forward s_num 0%Z 1%Z n = IOk c /\ run_code 0%Z 1%Z s_source Z.ltb (fun _ _ _ _ _ _ _ _ => None) F32 (fun _ => None) c = Some (Numbers (F32, mkT [2; 2] [4; 5; 6; 4]%Z)).
Proof. split; [left; split; [reflexivity|exists 5%Z, 1%Z; repeat split; reflexivity]|]. split; [reflexivity|]. eexists. split; reflexivity. Qed.
Example C74_bernoulli_ex : let n := r_node "Bernoulli" [s_arg "x" F32 [3]] [("dtype"%string, AInt 7)] in
  type_attr n F32 I64 /\ exists c, bernoulli_forward (T := Z) n (TensorT (mkTT I64 1 (Some [Some 3]))) = IOk c /\
  run_code 0%Z 1%Z s_source Z.ltb (fun _ _ _ _ _ _ _ _ => None) F32 (fun _ => Some (F32, mkT [3] [1; 2; 9]%Z)) c = Some (Bits (I64, mkT [3] [true; false; true])).
Proof. split; [reflexivity|]. eexists. split; reflexivity. Qed.
Example C74_grid_ex : let n := r_node "GridSample" [s_arg "x" F32 [1; 1; 2; 2]; s_arg "g" F32 [1; 1; 2; 2]] [("mode"%string, AString "nearest"); ("align_corners"%string, AInt 1)] in
  mode_attr n GNearest /\ padding_mode_attr n GZeros /\ align_attr n true /\
  exists c, grid_forward (T := Z) n = IOk c /\
    run_code 0%Z 1%Z s_source Z.ltb (fun _ _ _ _ _ f gx gy => f (Z.to_N gy) (Z.to_N gx)) F32 (fun s => if String.eqb s "x" then Some (F32, mkT [1; 1; 2; 2] [1; 2; 3; 4]%Z) else Some (F32, mkT [1; 1; 2; 2] [1; 0; 0; 1]%Z)) c
    = Some (Numbers (F32, mkT [1; 1; 1; 2] [2; 3]%Z)).
Proof. split; [cbn; tauto|]. split; [reflexivity|]. split; [right; auto|]. eexists. split; reflexivity. Qed.
Example C74_like_ex : let n := r_node "RandomUniformLike" [s_arg "x" F64 [2]] [("dtype"%string, AInt 11); ("high"%string, AFloat 3)] in
  asks s_num 0%Z 1%Z true n (Uniform 0%Z 3%Z) /\ type_attr n F64 F64 /\ fits (aty (s_arg "x" F64 [2])) [2] /\
  exists c, random_like_forward s_num 0%Z 1%Z n = IOk c /\ run_code 0%Z 1%Z s_source Z.ltb (fun _ _ _ _ _ _ _ _ => None) F32 (fun _ => Some (F64, mkT [2] [0; 0]%Z)) c = Some (Numbers (F64, mkT [2] [0; 0]%Z)).
Proof.
  split; [right; split; [reflexivity|exists 0%Z, 3%Z; repeat split; reflexivity]|]. split; [reflexivity|]. split; [split; [reflexivity|intros l [= <-]; constructor; [right; reflexivity|constructor]]|]. eexists. split; reflexivity.
Qed.

(** ** What does not hold *)
(** A RandomNormal of doubles is accepted, with the type of a tensor of doubles, but the code
    makes the backend's floats. *)
Theorem C74_random_double_refuted : exists (n : rnode) (d : dist Z) (c : scode),
  asks s_num 0%Z 1%Z false n d /\ type_attr n F32 F64 /\ random_infer n = IOk (TensorT (mkTT F64 1 None)) /\ random_forward s_num 0%Z 1%Z n = IOk c /\
  run_code 0%Z 1%Z s_source Z.ltb (fun _ _ _ _ _ _ _ _ => None) F32 (fun _ => None) c = Some (Numbers (onnx_random s_source d F32 [4])) /\
  onnx_random s_source d F32 [4] <> onnx_random s_source d F64 [4].
Proof.
  exists (r_node "RandomNormal" [] [("shape"%string, AInts [4]%Z); ("dtype"%string, AInt 11)]), (Normal 0%Z 1%Z). eexists. split; [left; split; [reflexivity|exists 0%Z, 1%Z; repeat split; reflexivity]|].
  split; [reflexivity|]. split; [reflexivity|]. split; [reflexivity|]. split; [reflexivity|discriminate].
Qed.
(** Without [dtype] the elements have the type of the input, which is what the code makes; the
    importer says [float]. *)
Theorem C74_random_like_type_refuted : exists (n : rnode) (u : tensor_type) (c : scode) (v : typed Z),
  type_attr n F64 F64 /\ random_like_infer n = IOk (TensorT u) /\ tt_dtype u = F32 /\ random_like_forward s_num 0%Z 1%Z n = IOk c /\
  run_code 0%Z 1%Z s_source Z.ltb (fun _ _ _ _ _ _ _ _ => None) F32 (fun _ => Some (F64, mkT [2] [0; 0]%Z)) c = Some (Numbers v) /\ fst v = F64.
Proof. exists (r_node "RandomNormalLike" [s_arg "x" F64 [2]] []). do 3 eexists. split; [reflexivity|]. split; [reflexivity|]. split; [reflexivity|]. split; [reflexivity|]. split; reflexivity. Qed.
(** With a [dtype] other than that of the input the code makes elements of the input's type. *)
Theorem C74_random_like_cast_refuted : exists (n : rnode) (u : tensor_type) (c : scode) (v : typed Z),
  type_attr n F32 F64 /\ random_like_infer n = IOk (TensorT u) /\ tt_dtype u = F64 /\ random_like_forward s_num 0%Z 1%Z n = IOk c /\
  run_code 0%Z 1%Z s_source Z.ltb (fun _ _ _ _ _ _ _ _ => None) F32 (fun _ => Some (F32, mkT [2] [0; 0]%Z)) c = Some (Numbers v) /\ fst v = F32.
Proof. exists (r_node "RandomNormalLike" [s_arg "x" F32 [2]] [("dtype"%string, AInt 11)]). do 3 eexists. split; [reflexivity|]. split; [reflexivity|]. split; [reflexivity|]. split; [reflexivity|]. split; reflexivity. Qed.
(** Bernoulli with another element type, here 16-bit floats, silently keeps that of the input. *)
Theorem C74_bernoulli_type_refuted : exists (n : rnode) (u : tensor_type),
  type_attr n F32 F16 /\ bernoulli_infer n = IOk (TensorT u) /\ tt_dtype u = F32.
Proof. exists (r_node "Bernoulli" [s_arg "x" F32 [3]] [("dtype"%string, AInt 10)]). eexists. split; [reflexivity|]. split; reflexivity. Qed.
(** GridSample of volumes (opset 20) is accepted, but the code calls the function for images. *)
Theorem C74_grid_volume_refuted : exists (n : rnode) (ty : argty) (c : scode), ninputs n = [s_arg "x" F32 [1; 1; 2; 2; 2]; s_arg "g" F32 [1; 1; 1; 1; 3]] /\
  mode_attr n GLinear /\ grid_infer 20 n = IOk ty /\ grid_forward (T := Z) n = IOk c /\
  forall sampler e X G, e "x"%string = Some (F32, X) -> e "g"%string = Some (F32, G) -> tshape X = [1; 1; 2; 2; 2] -> run_code 0%Z 1%Z s_source Z.ltb sampler F32 e c = None.
Proof.
  exists (r_node "GridSample" [s_arg "x" F32 [1; 1; 2; 2; 2]; s_arg "g" F32 [1; 1; 1; 1; 3]] []). do 2 eexists. split; [reflexivity|]. split; [reflexivity|]. split; [reflexivity|]. split; [reflexivity|].
  intros sampler e X G EX EG SX. cbn [run_code aname s_arg fst snd]. rewrite EX, EG, SX. reflexivity.
Qed.
(** Size is accepted with the right type, but the code uses a field that tensors do not have. *)
Theorem C74_size_refuted : forall (n : rnode) (x : arg) (c : scode), ninputs n = [x] -> size_forward (T := Z) n = IOk c ->
  forall zero one source less sampler df e, run_code zero one source less sampler df e c = None.
Proof. intros n x c Hn H. unfold size_forward in H. rewrite Hn in H. injection H as <-. reflexivity. Qed.
Print Assumptions C74_random_double_refuted.
Print Assumptions C74_random_like_type_refuted.
Print Assumptions C74_random_like_cast_refuted.
Print Assumptions C74_bernoulli_type_refuted.
Print Assumptions C74_grid_volume_refuted.
Print Assumptions C74_size_refuted.
