(** DeformConv computes what ONNX prescribes (C73). *)
From Coq Require Import Lia ZifyBool ZifyNat ZifyN.
From Verif Require Import Deform_Proofs Conv_Proofs Conv_Nodes Conv_Final Tensor_Proofs Linear_Model Linear_Proofs AxisOps_Model.
Import Conv_Spec Tensor_Spec.
Local Open Scope N_scope.

Lemma input_of n i (rest : list arg) x w o : ninputs n = x :: w :: o :: rest -> get_input n (S (S (S i))) = match nth_error rest i with Some a => if is_optional a then None else Some a | None => None end.
Proof. intros H. unfold get_input. rewrite H. reflexivity. Qed.
Lemma input_given n i rest x w o a : ninputs n = x :: w :: o :: rest -> given (nth_error rest i) a -> get_input n (S (S (S i))) = Some a.
Proof. intros H [H1 H2]. rewrite (input_of n i rest x w o H), H1, H2. reflexivity. Qed.
Lemma input_left n i rest x w o : ninputs n = x :: w :: o :: rest -> left_out (nth_error rest i) -> get_input n (S (S (S i))) = None.
Proof. intros H [H1|(b & H1 & H2)]; rewrite (input_of n i rest x w o H), H1; [reflexivity|rewrite H2; reflexivity]. Qed.

Lemma module_ok {T} (value : arg -> option (tensor T)) (e : string -> option (tensor T)) n (X W F : tensor T) (B M : option (tensor T)) w group ogroup b e' :
  deform_inputs value e n X W F B M -> deform_attrs n w group ogroup -> deform_shapes w group ogroup X W F B M -> w_pad w = Pads b e' ->
  deform_module value n = IOk (mkDeformM (match tshape W with _ :: cg :: _ => cg * group | _ => 0 end) (hd 0 (tshape W)) (w_kernel w) (w_stride w) (w_dilation w)
                                (if forallb (N.eqb 0) (b ++ e') then None else Some (b ++ e')) group ogroup W B).
Proof.
  intros (x & wa & o & rest & Hn & _ & _ & _ & Hc & Hk & _ & HB & _) (Ak & As & (b0 & e0 & Ap & Lb & Le & Ib & Ie & Pp) & Ag & Ao) (nb & cg & m & ih & iw & kh & kw & SX & SW & Kw & Gg & Gm & Go & Gc & WF & Hb & HF) Hp.
  rewrite Hp in Ap. injection Ap as <- <-. pose proof Hc as (Hv & WW & ty & Hty).
  unfold deform_module. rewrite (deform_config_ok _ n w group ogroup b e' (tshape W)); try assumption; try lia.
  2:{ rewrite Hn. exists wa. split; [reflexivity|]. unfold shapes. rewrite Hv. reflexivity. } 2:{ rewrite SW. reflexivity. } 2:{ rewrite SW, Kw. reflexivity. }
  cbn [iexpect ibind dc_kernel dc_stride dc_begin dc_end dc_dilation dc_group dc_ogroup]. rewrite Hn, (known_static _ _ Hk), SW. cbn [hd]. cbv zeta.
  rewrite N.mod_mul by lia. rewrite Gm. replace (group =? 0) with false by lia. cbn [N.eqb negb orb].
  rewrite (snapshot_of value wa W Hc), N.div_mul by lia. rewrite SW, Kw, eqs_refl.
  assert (EB : match get_input n 3 with Some b => match snapshot value b with Some B => if eqs (tshape B) [m] then IOk (Some B) else IErr | None => IErr end | None => IOk None end = IOk B).
  { destruct B as [bt|].
    - destruct HB as (a & Hgi & Hca). rewrite (input_given n 0 rest x wa o a Hn Hgi), (snapshot_of value a bt Hca). destruct (Hb bt eq_refl) as [_ ->]. rewrite eqs_refl. reflexivity.
    - rewrite (input_left n 0 rest x wa o Hn HB). reflexivity. }
  rewrite EB. cbn [ibind]. reflexivity.
Qed.

(** Whatever the strides, dilations, groups and offset groups, with or without bias and mask:
    the module is made and computes the deformable convolution of the weights in the file.
    Missing: padding that differs at the two ends of an axis (what Burn does with it is not
    modelled), weights computed by the graph (refused, below), and rounding. *)
Theorem C73_deform_conv_partial : forall (T : Type) (add mul : T -> T -> T) (zero : T) (of_int : Z -> T) (interp : (Z -> Z -> T) -> T -> T -> T)
    (value : arg -> option (tensor T)) (e : string -> option (tensor T)) (n : rnode) (X W F : tensor T) (B M : option (tensor T)) (w : window) (group ogroup : N) (p : list N) (out : string),
  (forall f g y x, (forall a b, f a b = g a b) -> interp f y x = interp g y x) ->
  deform_inputs value e n X W F B M -> output_name n out -> deform_attrs n w group ogroup -> deform_shapes w group ogroup X W F B M -> w_pad w = Pads p p ->
  (exists m, deform_module value n = IOk m) /\
  deform_run add mul zero of_int interp value n e = option_map (pair out) (onnx_deform_conv add mul zero of_int interp w group ogroup X W F B M).
Proof.
  intros T add mul zero of_int interp value e n X W F B M w group ogroup p out Hx Hi (y & r & Ho & <-) Ha Hs Hp.
  pose proof (module_ok value e n X W F B M w group ogroup p p Hi Ha Hs Hp) as Em. split; [eexists; exact Em|].
  unfold deform_run. rewrite Em. destruct Hi as (x & wa & o & rest & Hn & EX & WX & _ & _ & _ & EF & _ & HM). rewrite Hn, Ho, EX, EF.
  assert (G : deform_forward add mul zero of_int interp (mkDeformM (match tshape W with _ :: cg :: _ => cg * group | _ => 0 end) (hd 0 (tshape W)) (w_kernel w) (w_stride w) (w_dilation w)
      (if forallb (N.eqb 0) (p ++ p) then None else Some (p ++ p)) group ogroup W B) X F M = onnx_deform_conv add mul zero of_int interp w group ogroup X W F B M).
  { destruct Ha as (_ & (Ls & _ & _ & _ & Ll & _) & (b0 & e0 & Ap & Lb & _) & _). rewrite Hp in Ap. injection Ap as <- <-.
    destruct Hs as (nb & cg & m & ih & iw & kh & kw & SX & SW & Kw & Gg & Gm & Go & Gc & WF & Hb & HF).
    destruct w as [ks ss dl pp]. cbn [w_kernel w_stride w_dilation w_pad] in *. subst ks pp.
    destruct ss as [|sh [|sw [|]]]; cbn [length] in Ls; try lia. destruct dl as [|lh [|lw [|]]]; cbn [length] in Ll; try lia. destruct p as [|pt [|pl [|]]]; cbn [length] in Lb; try lia.
    rewrite SW. cbn [hd].
    apply (forward_ok add mul zero of_int interp Hx X W F B M _ group ogroup nb cg m ih iw kh kw sh sw lh lw pt pl); try assumption; try reflexivity; try lia.
    cbn [app forallb]. destruct ((0 =? pt) && ((0 =? pl) && ((0 =? pt) && ((0 =? pl) && true)))) eqn:E; [|reflexivity].
    assert (pt = 0) as -> by lia. assert (pl = 0) as -> by lia. reflexivity. }
  destruct M as [t|].
  - destruct HM as (a & Hg & Ea). rewrite (input_given n 1 rest x wa o a Hn Hg), Ea, G. reflexivity.
  - rewrite (input_left n 1 rest x wa o Hn HM), G. reflexivity.
Qed.
Print Assumptions C73_deform_conv_partial.

Lemma dim_fits t s i d : fits_tt t s -> known_dim t i = Some d -> nth_error s i = Some d.
Proof.
  intros [_ H] E. unfold known_dim in E. destruct (tt_shape t) as [l|]; [|discriminate]. specialize (H l eq_refl). revert i E. induction H as [|o v l s Hv _ IH]; intros i E; [destruct i; discriminate|].
  destruct i as [|i]; cbn [nth_error] in *; [destruct Hv as [-> | ->]; [discriminate|exact E]|apply IH; exact E].
Qed.
Lemma spatial_fits t s i d k st l b e v : fits_tt t s -> nth_error s i = Some d -> 0 < k -> 0 < st -> spatial_size t i k st l b e = Some v -> extent k l <= b + d + e /\ v = (b + d + e - extent k l) / st + 1.
Proof.
  intros Hf Hd Hk Hst H. unfold spatial_size in H. destruct (known_dim t i) as [d'|] eqn:E; [|discriminate]. rewrite (dim_fits _ _ _ _ Hf E) in Hd. injection Hd as ->.
  assert (EX : extent k l = l * (k - 1) + 1) by (unfold extent; lia). assert (EZ : (Z.of_N l * (Z.of_N k - 1) = Z.of_N (l * (k - 1)))%Z) by nia.
  destruct ((Z.of_N d + Z.of_N (b + e) - Z.of_N l * (Z.of_N k - 1) - 1 <? 0)%Z || (st =? 0)) eqn:EC; [discriminate|]. injection H as <-. rewrite EZ in EC |- *. rewrite EX.
  split; [lia|]. do 2 f_equal. lia.
Qed.

(** The type inferred for the output says nothing wrong about the result, whatever the
    padding. *)
Theorem C73_deform_type : forall (T : Type) (add mul : T -> T -> T) (zero : T) (of_int : Z -> T) (interp : (Z -> Z -> T) -> T -> T -> T)
    (value : arg -> option (tensor T)) (e : string -> option (tensor T)) (n : rnode) (X W F : tensor T) (B M : option (tensor T)) (w : window) (group ogroup : N) (ty : argty) (y : tensor T),
  deform_inputs value e n X W F B M -> deform_attrs n w group ogroup -> deform_shapes w group ogroup X W F B M ->
  deform_infer (shapes value) n = IOk ty -> onnx_deform_conv add mul zero of_int interp w group ogroup X W F B M = Some y ->
  fits ty (tshape y) /\ exists t x ins, ty = TensorT t /\ ninputs n = x :: ins /\ exists tx, aty x = TensorT tx /\ tt_dtype t = tt_dtype tx.
Proof.
  intros T add mul zero of_int interp value e n X W F B M w group ogroup ty y Hi Ha Hs H Hy.
  destruct Hi as (x & wa & o & rest & Hn & _ & _ & Fx & (Hv & _) & _). destruct Ha as (Ak & As & (b & e' & Ap & Lb & Le & Ib & Ie & Pp) & Ag & Ao).
  destruct Hs as (nb & cg & m & ih & iw & kh & kw & SX & SW & Kw & Gg & Gm & Go & Gc & WF & Hb & HF).
  unfold deform_infer in H. rewrite Hn in H. unfold tensor_of_rank at 1 in H. destruct (aty x) as [| | |t] eqn:Ex; try discriminate. destruct (tt_rank t =? 4); [|discriminate]. cbn [ibind] in H.
  destruct (tensor_of_rank 4 (Some (tt_dtype t)) wa) as [wt| |]; cbn [ibind] in H; try discriminate. destruct (tensor_of_rank 4 (Some (tt_dtype t)) o) as [ot| |]; cbn [ibind] in H; try discriminate.
  destruct (optional_of_rank 1 (tt_dtype t) (get_input n 3)) as [[]| |]; cbn [ibind] in H; try discriminate. destruct (optional_of_rank 4 (tt_dtype t) (get_input n 4)) as [[]| |]; cbn [ibind] in H; try discriminate.
  rewrite (deform_config_ok _ n w group ogroup b e' (tshape W)) in H; try assumption; try lia.
  2:{ rewrite Hn. exists wa. split; [reflexivity|]. unfold shapes. rewrite Hv. reflexivity. } 2:{ rewrite SW. reflexivity. } 2:{ rewrite SW, Kw. reflexivity. }
  cbn [dc_kernel dc_stride dc_begin dc_end dc_dilation] in H. unfold shapes at 1 in H. rewrite Hv in H. cbn [option_map cv_shape] in H. rewrite SW in H. cbv zeta in H.
  injection H as <-. split; [|exists (mkTT (tt_dtype t) 4 (Some [known_dim t 0; Some m; spatial_size t 2 (nth 0 (w_kernel w) 0) (nth 0 (w_stride w) 0) (nth 0 (w_dilation w) 0) (nth 0 b 0) (nth 0 e' 0);
    spatial_size t 3 (nth 1 (w_kernel w) 0) (nth 1 (w_stride w) 0) (nth 1 (w_dilation w) 0) (nth 1 b 0) (nth 1 e' 0)])), x, (wa :: o :: rest); split; [reflexivity|split; [exact Hn|exists t; split; [exact Ex|reflexivity]]]].
  unfold onnx_deform_conv in Hy. rewrite SX, SW in Hy. unfold pads_of in Hy. rewrite Ap in Hy.
  destruct As as (Ls & _ & Ps & _ & Ll & _). destruct Ak as (_ & Pk & _). destruct w as [ks ss dl pp]. cbn [w_kernel w_stride w_dilation w_pad] in *. subst ks.
  destruct ss as [|sh [|sw [|]]]; cbn [length] in Ls; try lia. destruct dl as [|lh [|lw [|]]]; cbn [length] in Ll; try lia. destruct b as [|b0 [|b1 [|]]]; cbn [length] in Lb; try lia. destruct e' as [|e0 [|e1 [|]]]; cbn [length] in Le; try lia.
  inversion Pk as [|? ? Pk1 Pk2]; subst. inversion Pk2; subst. inversion Ps as [|? ? Ps1 Ps2]; subst. inversion Ps2; subst.
  cbn [counts] in Hy. destruct (b0 + ih + e0 <? extent kh lh) eqn:C0; [discriminate|]. destruct (b1 + iw + e1 <? extent kw lw) eqn:C1; [discriminate|].
  apply tab_wf in Hy. destruct Hy as [_ ->]. cbn [fits nth]. split; [reflexivity|]. intros l Hl. injection Hl as <-. unfold fits in Fx. rewrite SX in Fx.
  constructor; [|constructor; [right; reflexivity|constructor; [|constructor; [|constructor]]]].
  - destruct (known_dim t 0) as [d|] eqn:E; [right|left; reflexivity]. pose proof (dim_fits _ _ _ _ Fx E) as Q. cbn in Q. congruence.
  - destruct (spatial_size t 2 kh sh lh b0 e0) as [v|] eqn:E; [right|left; reflexivity]. destruct (spatial_fits t _ 2 ih kh sh lh b0 e0 v Fx eq_refl) as [_ ->]; try assumption. reflexivity.
  - destruct (spatial_size t 3 kw sw lw b1 e1) as [v|] eqn:E; [right|left; reflexivity]. destruct (spatial_fits t _ 3 iw kw sw lw b1 e1 v Fx eq_refl) as [_ ->]; try assumption. reflexivity.
Qed.
Print Assumptions C73_deform_type.

(** Refused, rather than computed wrongly: a weight that is not a constant of the model, and a
    bias that is not. *)
Theorem C73_deform_refused : forall (T : Type) (value : arg -> option (tensor T)) (n : rnode) (x wa : arg) (ins : list arg),
  ninputs n = x :: wa :: ins ->
  (value wa = None -> forall m, deform_module value n <> IOk m) /\
  (forall b, nth_error ins 1 = Some b -> is_optional b = false -> value b = None -> forall m, deform_module value n <> IOk m).
Proof.
  intros T value n x wa ins Hn.
  assert (S0 : forall a, value a = None -> snapshot value a = None) by (intros a Ha; unfold snapshot; rewrite Ha; destruct (aty a); reflexivity).
  split; [intros Hv m H|intros b Hb Ob Vb m H]; unfold deform_module in H; destruct (deform_config (shapes value) n) as [c| |]; cbn [iexpect ibind] in H; try discriminate; rewrite Hn in H;
    destruct (Linear_Model.static_shape_known (aty wa)) as [[|s0 [|s1 sr]]|]; try discriminate; cbv zeta in H;
    destruct ((dc_group c =? 0) || negb ((s1 * dc_group c) mod dc_group c =? 0) || negb (s0 mod dc_group c =? 0)); try discriminate.
  - rewrite (S0 _ Hv) in H. discriminate.
  - destruct (snapshot value wa) as [W|]; [|discriminate]. destruct (eqs (tshape W) (s0 :: s1 * dc_group c / dc_group c :: dc_kernel c)); [|discriminate].
    assert (G : get_input n 3 = Some b) by (unfold get_input; rewrite Hn; cbn [nth_error] in *; destruct ins as [|i0 [|i1 ins]]; try discriminate; cbn [nth_error] in *; injection Hb as ->; rewrite Ob; reflexivity).
    rewrite G, (S0 _ Vb) in H. discriminate.
Qed.
Print Assumptions C73_deform_refused.

(** Four channels in two groups, four offset groups, no bias but a mask, padding, stride 2 below
    each other. *)
Definition darg (x : string) (r : N) (s : option (list N)) : arg := mkArg x (TensorT (mkTT F32 r (option_map (map Some) s))) VDynamic.
Definition dweight (x : string) (s : list N) : arg := mkArg x (TensorT (mkTT F32 (N.of_nat (length s)) (Some (map Some s)))) (VStatic 0).
Definition dnone : arg := mkArg "" (TensorT (mkTT F32 0 None)) VOptional.
Definition dints (shape : list N) (from : Z) : tensor Z := mkT shape (map (fun i => (Z.of_N i * 7 + from) mod 5 - 2)%Z (upto (prodN shape))).
Definition d_node : rnode := mkNode "DeformConv" "d" [darg "x" 4 (Some [1; 4; 5; 4]); dweight "w" [2; 2; 3; 2]; darg "f" 4 None; dnone; darg "k" 4 None] [darg "y" 4 None]
  [("strides"%string, AInts [2; 1]%Z); ("pads"%string, AInts [1; 0; 1; 0]%Z); ("group"%string, AInt 2); ("offset_group"%string, AInt 4)].
Definition d_win : window := mkWin [3; 2] [2; 1] [1; 1] (Pads [1; 0] [1; 0]).
Definition d_X := dints [1; 4; 5; 4] 0. Definition d_W := dints [2; 2; 3; 2] 1. Definition d_F := dints [1; 48; 3; 3] 2. Definition d_M := dints [1; 24; 3; 3] 3.
Definition d_vars (s : string) : option (tensor Z) := sget [("x"%string, d_X); ("f"%string, d_F); ("k"%string, d_M)] s.
Definition d_consts (a : arg) : option (tensor Z) := match asrc a with VStatic _ => sget [("w"%string, d_W)] (aname a) | _ => None end.
Definition d_pick (f : Z -> Z -> Z) (y x : Z) : Z := f y x.
Ltac in_range := repeat constructor; vm_compute; reflexivity.
Example C73_ex :
  (forall f g y x, (forall a b, f a b = g a b) -> d_pick f y x = d_pick g y x) /\
  deform_inputs d_consts d_vars d_node d_X d_W d_F None (Some d_M) /\ output_name d_node "y" /\ deform_attrs d_node d_win 2 4 /\ deform_shapes d_win 2 4 d_X d_W d_F None (Some d_M) /\
  (exists y, deform_run Z.add Z.mul 0%Z (fun z => z) d_pick d_consts d_node d_vars = Some ("y"%string, y) /\ tshape y = [1; 2; 3; 3] /\ existsb (fun v => negb (v =? 0)%Z) (tdata y) = true) /\
  deform_infer (shapes d_consts) d_node = IOk (TensorT (mkTT F32 4 (Some [Some 1; Some 2; Some 3; Some 3]))).
Proof.
  split; [intros f g y x H; apply H|]. split; [|split; [|split; [|split; [|split]]]].
  - eexists _, _, _, _. split; [reflexivity|]. split; [reflexivity|]. split; [reflexivity|]. split; [split; [reflexivity|intros l El; vm_compute in El; injection El as <-; repeat (apply Forall2_cons; [right; reflexivity|]); apply Forall2_nil]|].
    split; [split; [reflexivity|split; [reflexivity|eexists; reflexivity]]|]. split; [eexists; split; reflexivity|]. split; [reflexivity|]. split; [right; eexists; split; reflexivity|]. eexists. split; [split; reflexivity|reflexivity].
  - eexists _, _. split; reflexivity.
  - split; [split; [reflexivity|split; [in_range|split; [in_range|left; reflexivity]]]|]. split; [split; [reflexivity|split; [in_range|split; [in_range|split; [reflexivity|split; [reflexivity|split; [in_range|split; [in_range|reflexivity]]]]]]]|].
    split; [eexists _, _; split; [reflexivity|]; split; [reflexivity|]; split; [reflexivity|]; split; [in_range|]; split; [in_range|reflexivity]|]. split; reflexivity.
  - exists 1, 2, 2, 5, 4, 3, 2. repeat (split; [reflexivity || (split; reflexivity)|]). split; [discriminate|]. intros os E. vm_compute in E. injection E as <-. split; [reflexivity|]. intros t [= <-]. split; reflexivity.
  - eexists. split; [vm_compute; reflexivity|]. split; [reflexivity|vm_compute; reflexivity].
  - vm_compute. reflexivity.
Qed.
