(** Convolutions and pooling compute what ONNX prescribes (C65). *)
From Coq Require Import Lia ZifyBool ZifyNat ZifyN.
From Verif Require Import AxisOps_Model Conv_More Linear_Model Linear_Proofs.
Import Conv_Spec Tensor_Spec.
Local Open Scope N_scope.

(** Conv with one, two or three spatial axes, groups, strides, dilations, a bias or none,
    and padding given in any of the four ways: whenever the generator makes a module, that
    module computes the convolution of the weights in the file.  Missing: rounding (the sums
    are taken in the order of the specification) and weights computed by the graph. *)
Theorem C65_conv_partial : forall (T : Type) (add mul : T -> T -> T) (zero : T) (ceil_count : N -> N -> N -> N -> N -> N -> N)
    (value : arg -> option (tensor T)) (e : string -> option (tensor T)) (k : nat) (n : rnode) (X W : tensor T) (B : option (tensor T)) (w : window) (group : N) (out : string),
  (1 <= k)%nat -> input_is e n X -> weights_are value n W B -> output_name n out ->
  window_attrs k n w -> int_attr n "group" 1 group -> conv_shapes k group (w_kernel w) X W B ->
  (forall m, conv_module value k n = IOk m -> conv_run add mul zero value ceil_count k n e = option_map (pair out) (onnx_conv add mul zero w group X W B)) /\
  (attrs_in n conv_attrs -> padding_static k n w (tshape X) -> (forall x wa bs, ninputs n = x :: wa :: bs -> shape_known wa (tshape W)) ->
   exists m, conv_module value k n = IOk m).
Proof.
  intros T add mul zero cc value e k n X W B w group out K HX HW Ho Ha Hg Hs. split.
  - intros m Em. unfold conv_run. rewrite Em. rewrite (forward_is e n X _ out HX Ho). f_equal. exact (conv_module_ok add mul zero cc value e k n X W B w group m K HX HW Ha Hg Hs Em).
  - intros A P Q. exact (conv_accept add mul zero cc value e k n X W B w group K HX HW Ha Hg Hs A P Q).
Qed.
Print Assumptions C65_conv_partial.

(** ConvTranspose with as much removed before as after.  Missing: rounding; other pads,
    [auto_pad] and [output_shape] (refused, below). *)
Theorem C65_conv_transpose_partial : forall (T : Type) (add mul : T -> T -> T) (zero : T)
    (value : arg -> option (tensor T)) (e : string -> option (tensor T)) (k : nat) (n : rnode) (X W : tensor T) (B : option (tensor T)) (ks ss dl ps op : list N) (group : N) (out : string),
  (1 <= k)%nat -> input_is e n X -> weights_are value n W B -> output_name n out ->
  tconv_attrs_are k n ks ss dl ps op -> int_attr n "group" 1 group -> attrs_in n tconv_attrs ->
  conv_transpose_shapes k group ks X W B -> (forall x wa bs, ninputs n = x :: wa :: bs -> shape_known wa (tshape W)) ->
  (exists m, tconv_module value k n = IOk m) /\
  tconv_run add mul zero value k n e = option_map (pair out) (onnx_conv_transpose add mul zero ss dl ps ps op group X W B).
Proof.
  intros T add mul zero value e k n X W B ks ss dl ps op group out K HX HW Ho Ha Hg Hat Hs Hk.
  destruct (tconv_module_ok add mul zero (fun _ _ _ _ _ _ => 0) value e k n X W B ks ss dl ps op group K HX HW Ha Hg Hat Hs Hk) as (m & Em & Ef).
  split; [exists m; exact Em|]. unfold tconv_run. rewrite Em, (forward_is e n X _ out HX Ho), Ef. reflexivity.
Qed.
Print Assumptions C65_conv_transpose_partial.

(** MaxPool.  Missing: the second output (the indices). *)
Theorem C65_max_pool_partial : forall (T : Type) (zero : T) (larger : T -> T -> T) (lowest : T) (ceil_count : N -> N -> N -> N -> N -> N -> N)
    (e : string -> option (tensor T)) (k : nat) (n : rnode) (X : tensor T) (w : window) (ceil : bool) (out : string),
  (forall v, larger lowest v = v) ->
  (1 <= k)%nat -> input_is e n X -> output_name n out -> pool_shape k X -> window_attrs k n w ->
  get_attr n "kernel_shape" = Some (AInts (map Z.of_N (w_kernel w))) -> flag n "ceil_mode" ceil ->
  (forall m, max_pool_module k n = IOk m -> max_pool_run ceil_count larger lowest k n e = option_map (pair out) (onnx_max_pool zero larger lowest ceil_count ceil w X)) /\
  (padding_static k n w (tshape X) -> get_attr n "count_include_pad" = None -> exists m, max_pool_module k n = IOk m).
Proof.
  intros T zero larger lowest cc e k n X w ceil out Hl K HX Ho Hs Ha Hk Hc. split.
  - intros m Em. unfold max_pool_run. rewrite Em, (forward_is e n X _ out HX Ho). f_equal. eapply max_module_ok; eassumption.
  - intros Hp Hi. refine (proj1 (pool_accept larger larger zero cc (fun _ => None) e k n X w ceil false K HX Hs Ha Hp Hk Hc _)). exists 0. split; [|reflexivity]. unfold int_attr. rewrite Hi. reflexivity.
Qed.
Print Assumptions C65_max_pool_partial.

(** AveragePool.  Missing: dilations (below) and [ceil_mode]; rounding. *)
Theorem C65_average_pool_partial : forall (T : Type) (add : T -> T -> T) (zero : T) (over : T -> N -> T) (ceil_count : N -> N -> N -> N -> N -> N -> N)
    (e : string -> option (tensor T)) (k : nat) (n : rnode) (X : tensor T) (w : window) (include_pad : bool) (out : string),
  (forall v, add zero v = v) ->
  (1 <= k)%nat -> input_is e n X -> output_name n out -> pool_shape k X -> window_attrs k n w -> w_dilation w = repeat 1 k ->
  get_attr n "kernel_shape" = Some (AInts (map Z.of_N (w_kernel w))) -> flag n "ceil_mode" false -> flag n "count_include_pad" include_pad ->
  (forall m, avg_pool_module k n = IOk m -> avg_pool_run add zero ceil_count over k n e = option_map (pair out) (onnx_average_pool add zero over ceil_count false include_pad w X)) /\
  (padding_static k n w (tshape X) -> exists m, avg_pool_module k n = IOk m).
Proof.
  intros T add zero over cc e k n X w inc out Hz K HX Ho Hs Ha Hd Hk Hc Hi. split.
  - intros m Em. unfold avg_pool_run. rewrite Em, (forward_is e n X _ out HX Ho). f_equal. eapply avg_module_ok; eassumption.
  - intros Hp. exact (proj2 (pool_accept add add zero cc (fun _ => None) e k n X w false inc K HX Hs Ha Hp Hk Hc Hi)).
Qed.
Print Assumptions C65_average_pool_partial.

(** GlobalAveragePool of tensors with one or two spatial axes.  Other ranks are refused. *)
Theorem C65_global_average_pool : forall (T : Type) (add : T -> T -> T) (zero : T) (over : T -> N -> T) (e : string -> option (tensor T)) (n : rnode) (X : tensor T) (out : string),
  input_is e n X -> output_name n out ->
  (forall x ins t, ninputs n = x :: ins -> aty x = TensorT t -> tt_rank t = N.of_nat (length (tshape X))) ->
  (forall m, global_pool_module n = IOk m -> global_pool_run add zero over n e = option_map (pair out) (onnx_global_average_pool add zero over X)) /\
  ((exists m, global_pool_module n = IOk m) <-> (exists x ins t, ninputs n = x :: ins /\ aty x = TensorT t) /\ (length (tshape X) = 3%nat \/ length (tshape X) = 4%nat)).
Proof.
  intros T add zero over e n X out HX Ho Hr. pose proof HX as (x & ins & Hn & _).
  assert (HL : forall t, aty x = TensorT t -> tt_rank t = N.of_nat (length (tshape X))) by (intros t Ht; exact (Hr x ins t Hn Ht)).
  unfold global_pool_run, global_pool_module, first_input. rewrite Hn. cbn [nth_error ibind]. split.
  - intros m Em. destruct (aty x) as [| | |t]; try discriminate. specialize (HL t eq_refl). rewrite Em, (forward_is e n X _ out HX Ho). f_equal.
    destruct (N.eqb_spec (tt_rank t) 3) as [E3|_]; [|destruct (N.eqb_spec (tt_rank t) 4) as [E4|_]; [|discriminate]].
    + injection Em as <-. destruct (tshape X) as [|a [|c ds]] eqn:SX; cbn [length] in HL; try lia. destruct ds as [|d [|]]; cbn [length] in HL; try lia.
      exact (adaptive_forward_ok add add zero (fun _ _ _ _ _ _ => 0) over X a c [d] SX).
    + injection Em as <-. destruct (tshape X) as [|a [|c ds]] eqn:SX; cbn [length] in HL; try lia. destruct ds as [|d [|d' [|]]]; cbn [length] in HL; try lia.
      exact (adaptive_forward_ok add add zero (fun _ _ _ _ _ _ => 0) over X a c [d; d'] SX).
  - split.
    + intros [m Em]. destruct (aty x) as [| | |t] eqn:Ex; try discriminate. specialize (HL t eq_refl). split; [exists x, ins, t; auto|].
      destruct (N.eqb_spec (tt_rank t) 3) as [E3|_]; [left; lia|destruct (N.eqb_spec (tt_rank t) 4) as [E4|_]; [right; lia|discriminate]].
    + intros [(x' & ins' & t & Hn' & Ht) HL']. injection Hn' as <- <-. rewrite Ht. specialize (HL t Ht). rewrite HL. destruct HL' as [-> | ->]; eexists; reflexivity.
Qed.
Print Assumptions C65_global_average_pool.

Lemma conv_parts value k n c : conv_config value k n = IOk c ->
  auto_of n = IOk (cc_auto c) /\ exists pads, attr_i64s_or n "pads" (repeat 0%Z (2 * k)) = IOk pads /\ padding_config k pads = IOk (cc_begin c, cc_end c).
Proof.
  intros H. unfold conv_config in H. destruct (nth_error (ninputs n) 1) as [i1|]; [|discriminate]. destruct (value i1) as [v|]; [|discriminate].
  destruct (Nat.eqb k 3 && negb (forallb (fun kv => mem_str (fst kv) conv_attrs) (nattrs n))); [discriminate|].
  step H Ek. step H Es. step H Ep. step H Ed. step H Eg. fold (auto_of n) in H. step H Ea. step H Ec. step H Ew. step H E1. step H E2. injection H as <-. cbn [cc_auto cc_begin cc_end].
  split; [first [exact Ea|reflexivity]|]. exists a1. split; [first [exact Ep|reflexivity]|]. rewrite ?Ec. destruct a5; reflexivity.
Qed.
Lemma auto_same n w k a : window_attrs k n w -> (w_pad w = SameUp \/ w_pad w = SameLow) -> auto_of n = IOk a -> a = SameUpper \/ a = SameLower.
Proof. intros (_ & _ & Hp) H Ha. unfold auto_of in Ha. destruct H as [H|H]; rewrite H in Hp; unfold padding_attr in Hp; rewrite Hp in Ha; cbn in Ha; injection Ha as <-; auto. Qed.
Lemma zs_eqb_true a : forall b, zs_eqb a b = true -> a = b.
Proof. induction a as [|x a IH]; intros [|y b] H; try discriminate; [reflexivity|]. cbn in H. apply andb_prop in H. destruct H as [H1 H2]. apply Z.eqb_eq in H1. subst y. f_equal. apply IH. exact H2. Qed.
Lemma spatial_none n : (forall x ins, ninputs n = x :: ins -> static_shape_known (aty x) = None) -> forall sp, input_spatial n = IOk sp -> sp = None.
Proof. intros H sp E. unfold input_spatial in E. destruct (ninputs n) as [|x ins] eqn:En; [discriminate|]. rewrite (H x ins eq_refl) in E. congruence. Qed.
(** Refused, rather than computed wrongly: padding that differs before and after with three
    axes or in a transposed convolution; SAME padding if the shape is not known; [auto_pad]
    and [output_shape] of a transposed convolution. *)
Theorem C65_refused : forall (T : Type) (value : arg -> option (tensor T)) (k : nat) (n : rnode),
  (forall w b e, k = 3%nat -> window_attrs 3 n w -> w_pad w = Pads b e -> b <> e -> forall m, conv_module value 3 n <> IOk m) /\
  (forall w, (1 <= k)%nat -> window_attrs k n w -> (w_pad w = SameUp \/ w_pad w = SameLow) ->
     (forall x ins, ninputs n = x :: ins -> static_shape_known (aty x) = None) ->
     (forall m, conv_module value k n <> IOk m) /\
     (get_attr n "kernel_shape" = Some (AInts (map Z.of_N (w_kernel w))) -> forall m, max_pool_module k n <> IOk m /\ avg_pool_module k n <> IOk m)) /\
  (forall b e : list Z, length b = k -> length e = k -> b <> e -> get_attr n "pads" = Some (AInts (b ++ e)) -> forall m, tconv_module value k n <> IOk m) /\
  (get_attr n "output_shape" <> None \/ (exists s, get_attr n "auto_pad" = Some (AString s) /\ s <> "NOTSET"%string) -> forall m, tconv_module value k n <> IOk m).
Proof.
  intros T value k n. split; [|split; [|split]].
  - intros w b e -> Ha Hw Hbe m H. unfold conv_module in H. destruct (conv_config (shapes value) 3 n) as [c| |] eqn:Ec; cbn [ibind iexpect] in H; try discriminate.
    destruct (conv_parts _ _ _ _ Ec) as (A & pads & P1 & P2). destruct Ha as (_ & _ & Hp). destruct (padding_attrs 3 n _ _ _ Hp P1 P2) as (auto & A1 & A2 & A3).
    assert (auto = cc_auto c) by congruence. subst auto. rewrite Hw in A2. unfold auto_is in A2. cbn [fst snd] in A2. destruct (cc_auto c); try discriminate. injection A2 as Eb Ee.
    destruct (ninputs n) as [|x [|wa bs]]; try discriminate. destruct (static_shape_known (aty wa)) as [[|s0 [|s1 sr]]|]; try discriminate.
    step H Esp. unfold resolve_auto_pad in H. rewrite <- Eb, <- Ee in H. destruct (forallb (N.eqb 0) (b ++ e)) eqn:Ef.
    + apply Hbe. rewrite forallb_app in Ef. apply andb_prop in Ef. destruct Ef as [F1 F2]. rewrite Hw in Hp. unfold padding_attr in Hp. destruct Hp as (_ & L1 & L2 & _).
      rewrite (zeros_same _ F1), (zeros_same _ F2), L1, L2. reflexivity.
    + cbn [ibind padding_tokens Nat.eqb] in H. destruct (eqs b e) eqn:E; [apply eqs_true in E; contradiction|]. discriminate.
  - intros w K Ha Hw Hx. split.
    + intros m H. unfold conv_module in H. destruct (conv_config (shapes value) k n) as [c| |] eqn:Ec; cbn [ibind iexpect] in H; try discriminate.
      destruct (conv_parts _ _ _ _ Ec) as (A & _). pose proof (auto_same _ _ _ _ Ha Hw A) as A'.
      pose proof (spatial_none n Hx) as Hsp. destruct (ninputs n) as [|x [|wa bs]]; try discriminate. destruct (static_shape_known (aty wa)) as [[|s0 [|s1 sr]]|]; try discriminate.
      step H Esp. rewrite (Hsp _ eq_refl) in H. destruct A' as [E|E]; rewrite E in H; discriminate.
    + intros Hk m. assert (G : forall avg c, pool_config k avg n = IOk c -> forall sp, input_spatial n = IOk sp -> resolve_auto_pad (pc_auto c) (pc_begin c) (pc_end c) sp (pc_kernel c) (pc_stride c) (pc_dilation c) = IPanic).
      { intros avg c Ec sp Esp. destruct (pool_config_ok k avg n w c Ha K Hk Ec) as (_ & _ & _ & A & _). rewrite (spatial_none n Hx _ Esp). destruct Hw as [E|E]; rewrite E in A; unfold auto_is in A; destruct (pc_auto c); try discriminate; reflexivity. }
      split; intros H; [unfold max_pool_module in H; destruct (pool_config k false n) as [c| |] eqn:Ec|unfold avg_pool_module in H; destruct (pool_config k true n) as [c| |] eqn:Ec];
        cbn [ibind iexpect] in H; try discriminate; step H Esp; rewrite (G _ _ Ec _ eq_refl) in H; discriminate.
  - intros b e Lb Le Hbe Hp m H. unfold tconv_module in H. destruct (tconv_config (shapes value) k n) as [c| |] eqn:Ec; cbn [ibind iexpect] in H; try discriminate. clear H.
    unfold tconv_config in Ec. destruct (negb (forallb (fun kv => mem_str (fst kv) tconv_attrs) (nattrs n))); [discriminate|].
    step Ec E1. step Ec E2. step Ec E3. step Ec E4. step Ec E5. step Ec E6. step Ec E7. step Ec E8. clear Ec. unfold attr_i64s_or in E4. rewrite Hp in E4. cbn in E4. injection E4 as <-.
    assert (F : firstn k (b ++ e) = b /\ skipn k (b ++ e) = e) by (rewrite firstn_app, skipn_app, firstn_all2, skipn_all2 by lia; replace (k - length b)%nat with 0%nat by lia; cbn [firstn skipn app]; rewrite app_nil_r; auto).
    destruct F as [F1 F2]. destruct (Nat.eqb_spec k 1) as [->|].
    + rewrite F1, F2 in E8. destruct (zs_eqb b e) eqn:E; [apply zs_eqb_true in E; contradiction|]. rewrite orb_true_r in E8. discriminate.
    + rewrite F1, F2 in E8. rewrite (firstn_all2 e) in E8 by lia. destruct (zs_eqb b e) eqn:E; [apply zs_eqb_true in E; contradiction|].
      destruct (Nat.ltb (length (b ++ e)) (2 * k)); [discriminate|]. destruct (existsb (fun z => (z <? 0)%Z) (firstn (2 * k) (b ++ e))); discriminate.
  - intros Hbad m H. unfold tconv_module in H. destruct (tconv_config (shapes value) k n) as [c| |] eqn:Ec; cbn [ibind iexpect] in H; try discriminate. clear H.
    unfold tconv_config in Ec. destruct (forallb (fun kv => mem_str (fst kv) tconv_attrs) (nattrs n)) eqn:Ef; cbn [negb] in Ec; [|discriminate].
    destruct Hbad as [Hbad|(s & Hs & Hne)].
    + destruct (get_attr n "output_shape") as [v|] eqn:E; [|apply Hbad; reflexivity]. clear Ec Hbad. unfold get_attr in E. rewrite forallb_forall in Ef.
      assert (Hin : In ("output_shape"%string, v) (nattrs n)).
      { revert E. clear. induction (nattrs n) as [|[key u] l IH]; [discriminate|]. cbn [sget]. destruct (String.eqb_spec key "output_shape") as [->|]; [intros [= ->]; left; reflexivity|right; apply IH; assumption]. }
      specialize (Ef _ Hin). vm_compute in Ef. discriminate.
    + rewrite Hs in Ec. destruct (String.eqb_spec s "NOTSET"); [contradiction|discriminate].
Qed.
Print Assumptions C65_refused.

(** ** Cases *)
Definition carg (x : string) (r : N) (s : option (list N)) : arg := mkArg x (TensorT (mkTT F32 r (option_map (map Some) s))) VDynamic.
Definition cweight (x : string) (s : list N) : arg := mkArg x (TensorT (mkTT F32 (N.of_nat (length s)) (Some (map Some s)))) (VStatic 0).
Definition some_ints (shape : list N) (from : Z) : tensor Z := mkT shape (map (fun i => (Z.of_N i * 7 + from) mod 5 - 2)%Z (upto (prodN shape))).
Definition some_nats (shape : list N) (from : N) : tensor N := mkT shape (map (fun i => (i * 7 + from) mod 11) (upto (prodN shape))).
Definition vars {T} (l : list (string * tensor T)) (x : string) : option (tensor T) := sget l x.
Definition consts (l : list (string * tensor Z)) (a : arg) : option (tensor Z) := match asrc a with VStatic _ => sget l (aname a) | _ => None end.
Definition no_ceil (_ _ _ _ _ _ : N) : N := 0.
Definition zconv := conv_run Z.add Z.mul 0%Z.
Definition ztconv := tconv_run Z.add Z.mul 0%Z.
Definition zover (z : Z) (n : N) : Z := (z / Z.of_N n)%Z.

(** Four channels in two groups, SAME_UPPER, strides 2 and 1, a bias. *)
Definition c_node : rnode := mkNode "Conv2d" "c" [carg "x" 4 (Some [1; 4; 5; 4]); cweight "w" [2; 2; 3; 2]; cweight "b" [2]] [carg "y" 4 None]
  [("kernel_shape"%string, AInts [3; 2]%Z); ("strides"%string, AInts [2; 1]%Z); ("auto_pad"%string, AString "SAME_UPPER"); ("group"%string, AInt 2)].
Definition c_win : window := mkWin [3; 2] [2; 1] [1; 1] SameUp.
Definition c_consts : list (string * tensor Z) := [("w"%string, some_ints [2; 2; 3; 2] 1); ("b"%string, some_ints [2] 3)].
Ltac in_range := repeat constructor; vm_compute; reflexivity.
Ltac fits_by := split; [reflexivity|intros l El; vm_compute in El; try discriminate; injection El as <-; repeat (apply Forall2_cons; [right; reflexivity|]); apply Forall2_nil].
Example C65_conv_ex :
  input_is (vars [("x"%string, some_ints [1; 4; 5; 4] 0)]) c_node (some_ints [1; 4; 5; 4] 0) /\
  weights_are (consts c_consts) c_node (some_ints [2; 2; 3; 2] 1) (Some (some_ints [2] 3)) /\ output_name c_node "y" /\
  window_attrs 2 c_node c_win /\ int_attr c_node "group" 1 2 /\
  conv_shapes 2 2 (w_kernel c_win) (some_ints [1; 4; 5; 4] 0) (some_ints [2; 2; 3; 2] 1) (Some (some_ints [2] 3)) /\
  attrs_in c_node conv_attrs /\ padding_static 2 c_node c_win [1; 4; 5; 4] /\
  (forall x wa bs, ninputs c_node = x :: wa :: bs -> shape_known wa [2; 2; 3; 2]) /\
  exists y, zconv (consts c_consts) no_ceil 2 c_node (vars [("x"%string, some_ints [1; 4; 5; 4] 0)]) = Some ("y"%string, y) /\ tshape y = [1; 2; 3; 4] /\ existsb (fun v => (5 <? v)%Z) (tdata y) = true.
Proof.
  split; [|split; [|split; [|split; [|split; [|split; [|split; [|split; [|split]]]]]]]].
  - eexists _, _. split; [reflexivity|]. split; [reflexivity|]. split; [reflexivity|]. fits_by.
  - eexists _, _, _. split; [reflexivity|]. split; [split; [reflexivity|split; [reflexivity|eexists; reflexivity]]|]. eexists. split; [reflexivity|]. split; [reflexivity|split; [reflexivity|eexists; reflexivity]].
  - eexists _, _. split; reflexivity.
  - split; [|split]; [split; [reflexivity|split; [in_range|split; [in_range|right; reflexivity]]]| |reflexivity].
    split; [reflexivity|split; [in_range|split; [in_range|split; [reflexivity|split; [reflexivity|split; [in_range|split; [in_range|reflexivity]]]]]]].
  - reflexivity.
  - exists 1, 2, 2, [5; 4]. split; [reflexivity|]. split; [reflexivity|]. split; [reflexivity|]. split; [split; reflexivity|]. split; [reflexivity|]. intros t [= <-]. split; reflexivity.
  - intros key v H. cbn in H. repeat (destruct H as [[= <- <-]|H]; [cbn; tauto|]). destruct H.
  - split; [|split]; [|discriminate|discriminate]. intros _. split; [reflexivity|]. eexists _, _. split; [reflexivity|]. split; [eexists; split; reflexivity|in_range].
  - intros x wa bs [= <- <- <-]. eexists. split; reflexivity.
  - eexists. split; [vm_compute; reflexivity|]. split; [reflexivity|vm_compute; reflexivity].
Qed.

Definition t_node : rnode := mkNode "ConvTranspose1d" "t" [carg "x" 3 None; cweight "w" [2; 3; 3]] [carg "y" 3 None]
  [("strides"%string, AInts [2]%Z); ("pads"%string, AInts [1; 1]%Z); ("output_padding"%string, AInts [1]%Z)].
Example C65_conv_transpose_ex :
  input_is (vars [("x"%string, some_ints [1; 2; 4] 0)]) t_node (some_ints [1; 2; 4] 0) /\ weights_are (consts [("w"%string, some_ints [2; 3; 3] 1)]) t_node (some_ints [2; 3; 3] 1) None /\
  output_name t_node "y" /\ tconv_attrs_are 1 t_node [3] [2] [1] [1] [1] /\ int_attr t_node "group" 1 1 /\ attrs_in t_node tconv_attrs /\
  conv_transpose_shapes 1 1 [3] (some_ints [1; 2; 4] 0) (some_ints [2; 3; 3] 1) None /\ (forall x wa bs, ninputs t_node = x :: wa :: bs -> shape_known wa [2; 3; 3]) /\
  exists y, ztconv (consts [("w"%string, some_ints [2; 3; 3] 1)]) 1 t_node (vars [("x"%string, some_ints [1; 2; 4] 0)]) = Some ("y"%string, y) /\ tshape y = [1; 3; 8] /\ existsb (fun v => (3 <? v)%Z) (tdata y) = true.
Proof.
  split; [|split; [|split; [|split; [|split; [|split; [|split; [|split]]]]]]].
  - eexists _, _. split; [reflexivity|]. split; [reflexivity|]. split; [reflexivity|]. fits_by.
  - eexists _, _, _. split; [reflexivity|]. split; [split; [reflexivity|split; [reflexivity|eexists; reflexivity]]|reflexivity].
  - eexists _, _. split; reflexivity.
  - split; [split; [reflexivity|split; [in_range|split; [in_range|left; reflexivity]]]|].
    split; [split; [reflexivity|split; [in_range|split; [in_range|split; [reflexivity|split; [reflexivity|split; [in_range|split; [in_range|reflexivity]]]]]]]|].
    split; [left; reflexivity|]. split; [reflexivity|]. split; [in_range|]. split; [reflexivity|]. split; [reflexivity|]. split; [in_range|reflexivity].
  - reflexivity.
  - intros key v H. cbn in H. repeat (destruct H as [[= <- <-]|H]; [cbn; tauto|]). destruct H.
  - exists 1, 2, 3, [4]. split; [reflexivity|]. split; [reflexivity|]. split; [reflexivity|]. split; [split; reflexivity|]. split; [reflexivity|]. intros t [=].
  - intros x wa bs [= <- <- <-]. eexists. split; reflexivity.
  - eexists. split; [vm_compute; reflexivity|]. split; [reflexivity|vm_compute; reflexivity].
Qed.

Definition p_node (ty : string) (attrs : list (string * attr)) : rnode := mkNode ty "p" [carg "x" 4 (Some [1; 2; 5; 6])] [carg "y" 4 None] (("kernel_shape"%string, AInts [3; 2]%Z) :: ("strides"%string, AInts [2; 2]%Z) :: attrs).
Definition p_win : window := mkWin [3; 2] [2; 2] [1; 1] (Pads [1; 0] [0; 1]).
Definition p_pads : string * attr := ("pads"%string, AInts [1; 0; 0; 1]%Z).
Example C65_max_pool_ex :
  (forall v, N.max 0 v = v) /\ input_is (vars [("x"%string, some_nats [1; 2; 5; 6] 3)]) (p_node "MaxPool2d" [p_pads]) (some_nats [1; 2; 5; 6] 3) /\
  pool_shape 2 (some_nats [1; 2; 5; 6] 3) /\ window_attrs 2 (p_node "MaxPool2d" [p_pads]) p_win /\ flag (p_node "MaxPool2d" [p_pads]) "ceil_mode" false /\
  padding_static 2 (p_node "MaxPool2d" [p_pads]) p_win [1; 2; 5; 6] /\
  exists y, max_pool_run no_ceil N.max 0 2 (p_node "MaxPool2d" [p_pads]) (vars [("x"%string, some_nats [1; 2; 5; 6] 3)]) = Some ("y"%string, y) /\ tshape y = [1; 2; 2; 3] /\ existsb (fun v => v <? 10) (tdata y) = true.
Proof.
  split; [intros v; lia|]. split; [|split; [|split; [|split; [|split]]]].
  - eexists _, _. split; [reflexivity|]. split; [reflexivity|]. split; [reflexivity|]. fits_by.
  - exists 1, 2, [5; 6]. split; reflexivity.
  - split; [|split]; [split; [reflexivity|split; [in_range|split; [in_range|right; reflexivity]]]| |].
    + split; [reflexivity|split; [in_range|split; [in_range|split; [reflexivity|split; [reflexivity|split; [in_range|split; [in_range|reflexivity]]]]]]].
    + split; [left; reflexivity|]. split; [reflexivity|]. split; [reflexivity|]. split; [in_range|]. split; [in_range|reflexivity].
  - exists 0. split; reflexivity.
  - split; [|split]; try discriminate. intros [|]; discriminate.
  - eexists. split; [vm_compute; reflexivity|]. split; [reflexivity|vm_compute; reflexivity].
Qed.
Example C65_average_pool_ex :
  let n := p_node "AveragePool2d" [p_pads; ("count_include_pad"%string, AInt 1)] in
  input_is (vars [("x"%string, some_ints [1; 2; 5; 6] 3)]) n (some_ints [1; 2; 5; 6] 3) /\
  pool_shape 2 (some_ints [1; 2; 5; 6] 3) /\ window_attrs 2 n p_win /\ flag n "ceil_mode" false /\ flag n "count_include_pad" true /\ padding_static 2 n p_win [1; 2; 5; 6] /\
  exists y, avg_pool_run Z.add 0%Z no_ceil zover 2 n (vars [("x"%string, some_ints [1; 2; 5; 6] 3)]) = Some ("y"%string, y) /\ tshape y = [1; 2; 2; 3] /\ existsb (fun v => (v <? 0)%Z) (tdata y) = true.
Proof.
  intros n. split; [|split; [|split; [|split; [|split; [|split]]]]].
  - eexists _, _. split; [reflexivity|]. split; [reflexivity|]. split; [reflexivity|]. fits_by.
  - exists 1, 2, [5; 6]. split; reflexivity.
  - split; [|split]; [split; [reflexivity|split; [in_range|split; [in_range|right; reflexivity]]]| |].
    + split; [reflexivity|split; [in_range|split; [in_range|split; [reflexivity|split; [reflexivity|split; [in_range|split; [in_range|reflexivity]]]]]]].
    + split; [left; reflexivity|]. split; [reflexivity|]. split; [reflexivity|]. split; [in_range|]. split; [in_range|reflexivity].
  - exists 0. split; reflexivity.
  - exists 1. split; reflexivity.
  - split; [|split]; try discriminate. intros [|]; discriminate.
  - eexists. split; [vm_compute; reflexivity|]. split; [reflexivity|vm_compute; reflexivity].
Qed.
Example C65_global_ex : exists y, global_pool_run Z.add 0%Z zover (mkNode "GlobalAveragePool" "g" [carg "x" 3 None] [carg "y" 3 None] []) (vars [("x"%string, some_ints [2; 2; 3] 3)]) = Some ("y"%string, y) /\ tshape y = [2; 2; 1].
Proof. eexists. split; [vm_compute; reflexivity|reflexivity]. Qed.

(** Dilations of AveragePool are read, and dropped. *)
Theorem C65_average_dilation_refuted : exists (e : string -> option (tensor Z)) (n : rnode) (X y : tensor Z) (w : window),
  input_is e n X /\ window_attrs 1 n w /\ get_attr n "kernel_shape" = Some (AInts (map Z.of_N (w_kernel w))) /\ pool_checks true 19 n = IOk tt /\
  avg_pool_run Z.add 0%Z no_ceil zover 1 n e = Some ("y"%string, y) /\ onnx_average_pool Z.add 0%Z zover no_ceil false false w X <> Some y.
Proof.
  exists (vars [("x"%string, some_ints [1; 1; 5] 3)]), (mkNode "AveragePool1d" "p" [carg "x" 3 None] [carg "y" 3 None] [("kernel_shape"%string, AInts [2]%Z); ("dilations"%string, AInts [2]%Z)]), (some_ints [1; 1; 5] 3).
  eexists _, (mkWin [2] [1] [2] (Pads [0] [0])). split; [|split; [|split; [reflexivity|split; [reflexivity|split; [vm_compute; reflexivity|vm_compute; discriminate]]]]].
  - eexists _, _. split; [reflexivity|]. split; [reflexivity|]. split; [reflexivity|]. fits_by.
  - split; [|split]; [split; [reflexivity|split; [in_range|split; [in_range|right; reflexivity]]]| |].
    + split; [reflexivity|split; [in_range|split; [in_range|split; [reflexivity|split; [reflexivity|split; [in_range|split; [in_range|reflexivity]]]]]]].
    + split; [left; reflexivity|]. split; [reflexivity|]. split; [reflexivity|]. split; [in_range|]. split; [in_range|reflexivity].
Qed.
Print Assumptions C65_average_dilation_refuted.

(** SAME padding is computed from the shape that inference gives the input, and inference
    gives the output of a MaxPool the shape of its input: after a MaxPool, a Conv with
    SAME_UPPER pads for the wrong size.  Here 6 values become 3, and the Conv should give 2
    values; the code pads for 6, and it gives 1. *)
Theorem C65_same_after_pool_refuted : exists (value : arg -> option (tensor Z)) (X W : tensor Z) (pool conv : rnode) (mid out : tensor Z) (w1 w2 : window),
  input_is (vars [("x"%string, X)]) pool X /\ window_attrs 1 pool w1 /\ window_attrs 1 conv w2 /\ weights_are value conv W None /\ int_attr conv "group" 1 1 /\
  onnx_max_pool 0%Z Z.max (-100)%Z no_ceil false w1 X = Some mid /\ conv_shapes 1 1 (w_kernel w2) mid W None /\
  (exists x ins p, ninputs conv = x :: ins /\ nth_error (noutputs pool) 0 = Some p /\ aname p = aname x /\
     infer_same pool = IOk (aty x) /\ aty p = aty x /\
     max_pool_run no_ceil Z.max (-100)%Z 1 pool (vars [("x"%string, X)]) = Some (aname x, mid) /\
     zconv value no_ceil 1 conv (vars [(aname x, mid)]) = Some ("y"%string, out)) /\
  tshape out = [1; 1; 1] /\ option_map tshape (onnx_conv Z.add Z.mul 0%Z w2 1 mid W None) = Some [1; 1; 2].
Proof.
  pose (mty := TensorT (mkTT F32 3 (Some [Some 1; Some 1; Some 6]))).
  exists (consts [("w"%string, some_ints [1; 1; 3] 1)]), (some_ints [1; 1; 6] 0), (some_ints [1; 1; 3] 1),
    (mkNode "MaxPool1d" "p" [mkArg "x" mty VDynamic] [mkArg "m" mty VDynamic] [("kernel_shape"%string, AInts [2]%Z); ("strides"%string, AInts [2]%Z)]),
    (mkNode "Conv1d" "c" [mkArg "m" mty VDynamic; cweight "w" [1; 1; 3]] [carg "y" 3 None] [("kernel_shape"%string, AInts [3]%Z); ("strides"%string, AInts [2]%Z); ("auto_pad"%string, AString "SAME_UPPER")]).
  eexists _, _, (mkWin [2] [2] [1] (Pads [0] [0])), (mkWin [3] [2] [1] SameUp).
  split; [|split; [|split; [|split; [|split; [|split; [|split; [|split; [|split]]]]]]]].
  - eexists _, _. split; [reflexivity|]. split; [reflexivity|]. split; [reflexivity|]. fits_by.
  - split; [|split]; [split; [reflexivity|split; [in_range|split; [in_range|right; reflexivity]]]| |].
    + split; [reflexivity|split; [in_range|split; [in_range|split; [reflexivity|split; [reflexivity|split; [in_range|split; [in_range|reflexivity]]]]]]].
    + split; [left; reflexivity|]. split; [reflexivity|]. split; [reflexivity|]. split; [in_range|]. split; [in_range|reflexivity].
  - split; [|split]; [split; [reflexivity|split; [in_range|split; [in_range|right; reflexivity]]]| |reflexivity].
    split; [reflexivity|split; [in_range|split; [in_range|split; [reflexivity|split; [reflexivity|split; [in_range|split; [in_range|reflexivity]]]]]]].
  - eexists _, _, _. split; [reflexivity|]. split; [split; [reflexivity|split; [reflexivity|eexists; reflexivity]]|reflexivity].
  - reflexivity.
  - vm_compute; reflexivity.
  - exists 1, 1, 1, [3]. split; [reflexivity|]. split; [reflexivity|]. split; [reflexivity|]. split; [split; reflexivity|]. split; [reflexivity|]. intros t [=].
  - eexists _, _, _. split; [reflexivity|]. split; [reflexivity|]. split; [reflexivity|]. split; [reflexivity|]. split; [reflexivity|]. split; vm_compute; reflexivity.
  - reflexivity.
  - vm_compute; reflexivity.
Qed.
Print Assumptions C65_same_after_pool_refuted.
