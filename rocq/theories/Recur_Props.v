(** RNN, GRU and LSTM compute what ONNX prescribes (C64). *)
From Coq Require Import Lia ZifyBool ZifyNat ZifyN.
From Verif Require Import Recur_Final Elements_Spec.
Import Recur_Spec Tensor_Spec.
Local Open Scope N_scope.

(** The activations the generated code can name. *)
Definition supported (a : activation) : Prop := In a [Sigmoid; Tanh; Relu; HardSigmoid; LeakyRelu; Softplus].
Lemma supported_has a : supported a -> burn_has a = true.
Proof. intros H. cbn in H. repeat (destruct H as [<-|H]; [reflexivity|]). destruct H. Qed.
Lemma no_clip n ks : attrs_among n ks -> ~ In "clip"%string ks -> get_attr n "clip" = None.
Proof.
  intros H Hk. unfold get_attr. destruct (sget (nattrs n) "clip") as [a|] eqn:E; [|reflexivity]. exfalso. apply Hk. apply (H "clip"%string a).
  clear H Hk. revert E. induction (nattrs n) as [|[k v] l IH]; [discriminate|]. cbn [sget]. destruct (String.eqb_spec k "clip") as [->|]; [intros [= ->]; left; reflexivity|right; apply IH; assumption].
Qed.
(** The types given to the outputs: the element type of X, rank 4 for Y and 3 for the
    final states. *)
Definition recurrent_types (n : rnode) (states : nat) (r : ires (list argty)) : Prop :=
  exists x tx, nth_error (ninputs n) 0 = Some x /\ aty x = TensorT tx /\
    r = IOk (firstn (length (noutputs n)) (TensorT (mkTT (tt_dtype tx) 4 None) :: repeat (TensorT (mkTT (tt_dtype tx) 3 None)) states)).

(** RNN, in every direction, with or without bias and initial state: Y is the state
    after every element, Y_h the state at the end.  Missing: rounding (numbers with
    exact sums), clip, activation_alpha and activation_beta, sequences of different
    lengths (refused, below), weights computed by the graph, input or hidden sizes of 1,
    and layout 1 except for Y of both directions (below). *)
Theorem C64_rnn_partial : forall (T : Type) (add mul : T -> T -> T) (zero : T) (minus1 : T -> T) (act : activation -> T -> T),
  (forall a b c, add a (add b c) = add (add a b) c) -> (forall a b, add a b = add b a) -> (forall a, add a zero = a) ->
  forall (value : arg -> option (tensor T)) (e : string -> option (tensor T)) (n : rnode) (layout : bool) (dir : direction) (len batch : N)
    (X : tensor T) (w : weights) (h0 : option (tensor T)) (field : string) (f : activation),
  recurrent_inputs value e n layout dir len batch X w h0 ->
  gates w = 1 -> input w <> 1 -> hidden w <> 1 -> hidden w < 2 ^ 64 ->
  attrs_among n ["hidden_size"; "direction"; "layout"; "activations"]%string ->
  get_attr n "hidden_size" = Some (AInt (Z.of_N (hidden w))) -> direction_attr n dir -> layout_attr n layout ->
  activations_attr n dir [Tanh] [f] -> supported f ->
  (layout = false \/ (dir = Bidirectional /\ h0 = None)) ->
  distinct_outputs n -> (forall o, In o (noutputs n) -> aname o <> ""%string) ->
  recurrent_types n 1 (infer_recur value KRnn n) /\
  exists outs, recur_run add mul zero minus1 act value KRnn n field e = Some outs /\
    (forall o, nth_error (noutputs n) 0 = Some o -> exists Y, sget outs (aname o) = Some Y /\
       outputs_all zero layout (fun d => rnn_step add mul zero w d (act f)) (initial zero layout h0) (fun h => h) dir (hidden w) X Y) /\
    (forall o, layout = false -> nth_error (noutputs n) 1 = Some o -> exists Y, sget outs (aname o) = Some Y /\
       outputs_last zero layout (fun d => rnn_step add mul zero w d (act f)) (initial zero layout h0) (fun h => h) dir (hidden w) X Y).
Proof.
  intros T add mul zero minus1 act HA HC HZ value e n layout dir len batch X w h0 field f Hin Hg HI HH Hb Hattr Hs Hd Hl Ha Hf Hlay Hdist Hn.
  assert (Hc : get_attr n "clip" = None) by (apply (no_clip n _ Hattr); cbn; intuition discriminate).
  split.
  - destruct (config_ok value e KRnn n layout dir len batch X w h0 false [f] Hin Hs Hb Hd Hl Hc Ha eq_refl ltac:(discriminate)) as [Ec _].
    exact (infer_ok KRnn value e n layout dir len batch X w h0 None _ Hin Ec eq_refl ltac:(discriminate)).
  - exact (rnn_ok add mul zero minus1 act HA HC HZ value e n layout dir len batch X w h0 field Hin HI HH Hs Hb Hd Hl Hc Hdist f Hg Ha (supported_has f Hf) Hlay Hn).
Qed.
Print Assumptions C64_rnn_partial.

(** GRU, in every direction, with both places of the reset gate.  Missing: as for RNN;
    with initial states and layout 1; sequences of length zero in one direction; activations
    other than Sigmoid and Tanh (the code generator panics). *)
Theorem C64_gru_partial : forall (T : Type) (add mul : T -> T -> T) (zero : T) (minus1 : T -> T) (act : activation -> T -> T),
  (forall a b c, add a (add b c) = add (add a b) c) -> (forall a b, add a b = add b a) -> (forall a, add a zero = a) ->
  forall (value : arg -> option (tensor T)) (e : string -> option (tensor T)) (n : rnode) (layout : bool) (dir : direction) (len batch : N)
    (X : tensor T) (w : weights) (h0 : option (tensor T)) (field : string) (reset_after : bool),
  recurrent_inputs value e n layout dir len batch X w h0 ->
  gates w = 3 -> input w <> 1 -> hidden w <> 1 -> hidden w < 2 ^ 64 ->
  attrs_among n ["hidden_size"; "direction"; "layout"; "activations"; "linear_before_reset"]%string ->
  get_attr n "hidden_size" = Some (AInt (Z.of_N (hidden w))) -> direction_attr n dir -> layout_attr n layout ->
  activations_attr n dir [Sigmoid; Tanh] [Sigmoid; Tanh] -> flag_attr n "linear_before_reset" reset_after ->
  (layout = false \/ h0 = None) -> (0 < len \/ dir = Bidirectional) ->
  distinct_outputs n ->
  let step := fun d => gru_step add mul zero minus1 w d (act Sigmoid) (act Tanh) reset_after in
  recurrent_types n 1 (infer_recur value KGru n) /\
  exists outs, recur_run add mul zero minus1 act value KGru n field e = Some outs /\
    (forall o, nth_error (noutputs n) 0 = Some o -> aname o <> ""%string -> exists Y, sget outs (aname o) = Some Y /\
       outputs_all zero layout step (initial zero layout h0) (fun h => h) dir (hidden w) X Y) /\
    (forall o, layout = false -> nth_error (noutputs n) 1 = Some o -> aname o <> ""%string -> exists Y, sget outs (aname o) = Some Y /\
       outputs_last zero layout step (initial zero layout h0) (fun h => h) dir (hidden w) X Y).
Proof.
  intros T add mul zero minus1 act HA HC HZ value e n layout dir len batch X w h0 field flag Hin Hg HI HH Hb Hattr Hs Hd Hl Ha Hf Hlay Hlen Hdist step.
  assert (Hc : get_attr n "clip" = None) by (apply (no_clip n _ Hattr); cbn; intuition discriminate).
  split.
  - destruct (config_ok value e KGru n layout dir len batch X w h0 flag [Sigmoid; Tanh] Hin Hs Hb Hd Hl Hc Ha Hf ltac:(discriminate)) as [Ec _].
    exact (infer_ok KGru value e n layout dir len batch X w h0 None _ Hin Ec eq_refl ltac:(discriminate)).
  - exact (gru_ok add mul zero minus1 act HA HC HZ value e n layout dir len batch X w h0 field Hin HI HH Hs Hb Hd Hl Hc Hdist flag Hg Ha Hf Hlay Hlen).
Qed.
Print Assumptions C64_gru_partial.

(** LSTM, in every direction, with or without coupled input and forget gates.  Missing: as
    for RNN; one initial state without the other (below); peepholes (refused, below). *)
Theorem C64_lstm_partial : forall (T : Type) (add mul : T -> T -> T) (zero : T) (minus1 : T -> T) (act : activation -> T -> T),
  (forall a b c, add a (add b c) = add (add a b) c) -> (forall a b, add a b = add b a) -> (forall a, add a zero = a) ->
  forall (value : arg -> option (tensor T)) (e : string -> option (tensor T)) (n : rnode) (layout : bool) (dir : direction) (len batch : N)
    (X : tensor T) (w : weights) (h0 c0 : option (tensor T)) (field : string) (f g h : activation) (coupled : bool),
  recurrent_inputs value e n layout dir len batch X w h0 ->
  optional_input (fun a => e (aname a)) n 6 3 c0 -> initial_ok layout c0 (directions dir) batch (hidden w) -> (h0 = None <-> c0 = None) ->
  given n 7 = None ->
  gates w = 4 -> input w <> 1 -> hidden w <> 1 -> hidden w < 2 ^ 64 ->
  attrs_among n ["hidden_size"; "direction"; "layout"; "activations"; "input_forget"]%string ->
  get_attr n "hidden_size" = Some (AInt (Z.of_N (hidden w))) -> direction_attr n dir -> layout_attr n layout ->
  activations_attr n dir [Sigmoid; Tanh; Tanh] [f; g; h] -> Forall supported [f; g; h] -> flag_attr n "input_forget" coupled ->
  (layout = false \/ (dir = Bidirectional /\ h0 = None)) ->
  distinct_outputs n -> (forall o, In o (noutputs n) -> aname o <> ""%string) ->
  let step := fun d => lstm_step add mul zero minus1 w d (act f) (act g) (act h) coupled in
  let s0 := fun d b => (initial zero layout h0 d b, initial zero layout c0 d b) in
  recurrent_types n 2 (infer_recur value KLstm n) /\
  exists outs, recur_run add mul zero minus1 act value KLstm n field e = Some outs /\
    (forall o, nth_error (noutputs n) 0 = Some o -> exists Y, sget outs (aname o) = Some Y /\ outputs_all zero layout step s0 fst dir (hidden w) X Y) /\
    (forall o, layout = false -> nth_error (noutputs n) 1 = Some o -> exists Y, sget outs (aname o) = Some Y /\ outputs_last zero layout step s0 fst dir (hidden w) X Y) /\
    (forall o, layout = false -> nth_error (noutputs n) 2 = Some o -> exists Y, sget outs (aname o) = Some Y /\ outputs_last zero layout step s0 snd dir (hidden w) X Y).
Proof.
  intros T add mul zero minus1 act HA HC HZ value e n layout dir len batch X w h0 c0 field f g h flag Hin H6 Hi6 Hboth H7 Hg HI HH Hb Hattr Hs Hd Hl Ha Hsup Hf Hlay Hdist Hn step s0.
  assert (Hc : get_attr n "clip" = None) by (apply (no_clip n _ Hattr); cbn; intuition discriminate).
  split.
  - destruct (config_ok value e KLstm n layout dir len batch X w h0 flag [f; g; h] Hin Hs Hb Hd Hl Hc Ha Hf (fun _ => H7)) as [Ec _].
    exact (infer_ok KLstm value e n layout dir len batch X w h0 c0 _ Hin Ec eq_refl (fun _ => H6)).
  - assert (Hsup' : Forall (fun a => burn_has a = true) [f; g; h]) by (eapply Forall_impl; [exact supported_has|exact Hsup]).
    exact (lstm_ok add mul zero minus1 act HA HC HZ value e n layout dir len batch X w h0 field Hin HI HH Hs Hb Hd Hl Hc Hdist f g h flag c0 Hg Ha Hsup' Hf H7 H6 Hi6 Hboth Hlay Hn).
Qed.
Print Assumptions C64_lstm_partial.

(** Sequences of different lengths and peepholes are refused. *)
Theorem C64_refused : forall (T : Type) (value : arg -> option (tensor T)) (k : rkind) (n : rnode) (tys : list argty),
  (given n 4 <> None \/ (k = KLstm /\ given n 7 <> None)) -> infer_recur value k n <> IOk tys.
Proof.
  intros T value k n tys H E. unfold infer_recur in E.
  destruct (rank3 n 0) as [t0| |]; cbn [ibind] in E; try discriminate. destruct (rank3 n 1) as [t1| |]; cbn [ibind] in E; try discriminate. destruct (rank3 n 2) as [t2| |]; cbn [ibind] in E; try discriminate.
  destruct (optional_rank n 3 2) as [u3| |]; cbn [ibind] in E; try discriminate. destruct (optional_rank n 5 3) as [u5| |]; cbn [ibind] in E; try discriminate.
  destruct (match k with KLstm => optional_rank n 6 3 | _ => IOk tt end) as [u6| |]; cbn [ibind] in E; try discriminate.
  destruct (recur_config value k n) as [c| |] eqn:Ec; cbn [ibind] in E; try discriminate.
  destruct (rc_peephole c) eqn:Ep; [discriminate|].
  assert (G : forall i, given n i <> None -> has_input n i = true).
  { intros i. unfold given, has_input. destruct (nth_error (ninputs n) i) as [v|]; [destruct (is_optional v)|]; intros Hv; cbn; congruence. }
  destruct H as [H|[-> H]]; [rewrite (G _ H) in E; discriminate|].
  unfold recur_config in Ec. destruct (ninputs n) as [|x [|y r]] eqn:Ei; try discriminate.
  destruct (match input_size value x y with Some i => IOk i | None => IErr end); cbn [ibind] in Ec; try discriminate.
  destruct (match get_attr n "hidden_size" with None => IErr | Some a => ibind (attr_i64 a) (fun z => IOk (to_usize z)) end); cbn [ibind] in Ec; try discriminate.
  destruct (match get_attr n "direction" with None => IOk Forward | Some (AString s) => parse_direction s | Some _ => IPanic end) as [dir| |]; cbn [ibind] in Ec; try discriminate.
  destruct (attr_i64_or n "layout" 0); cbn [ibind] in Ec; try discriminate.
  destruct (clip_config n); cbn [ibind] in Ec; try discriminate.
  cbn [has_coupling flag_name] in Ec. destruct (attr_i64_or n "input_forget" 0); cbn [ibind] in Ec; try discriminate.
  destruct (acts_config KLstm n dir); cbn [ibind] in Ec; try discriminate.
  injection Ec as <-. cbn [rc_peephole] in Ep. rewrite (G _ H) in Ep. discriminate.
Qed.
Print Assumptions C64_refused.

(** ** Cases that meet the hypotheses *)
(** Whole numbers, with some functions for the activations. *)
Definition zact (a : activation) (v : Z) : Z :=
  match a with Sigmoid => if (v <? 0)%Z then 1 else 2 | Tanh => Z.max (-9) (Z.min 9 v) | Relu => Z.max 0 v | _ => v end%Z.
Definition zminus1 (v : Z) : Z := (1 - v)%Z.
Definition zrun := recur_run Z.add Z.mul 0%Z zminus1 zact.
Definition rarg (x : string) (r : N) : arg := mkArg x (TensorT (mkTT F32 r None)) VDynamic.
Definition rweight (x : string) (r : N) : arg := mkArg x (TensorT (mkTT F32 r None)) (VStatic 0).
Definition left_out : arg := mkArg "" (TensorT (mkTT F32 0 None)) VOptional.
Definition ints (shape : list N) (from : Z) : tensor Z := mkT shape (map (fun i => (Z.of_N i * 7 + from) mod 5 - 2)%Z (upto (prodN shape))).
Definition of_list (l : list (string * tensor Z)) (x : string) : option (tensor Z) := sget l x.
Definition const_of (l : list (string * tensor Z)) (a : arg) : option (tensor Z) := match asrc a with VStatic _ => sget l (aname a) | _ => None end.

Lemma distinct_ok n : NoDup (map aname (noutputs n)) -> distinct_outputs n.
Proof.
  intros H i j a b Hi Hj Hab _. rewrite NoDup_nth_error in H. apply H.
  - rewrite map_length. apply nth_error_Some. congruence.
  - rewrite !nth_error_map, Hi, Hj. cbn. congruence.
Qed.
Ltac typed_by := eexists; split; [reflexivity|]; split; [reflexivity|]; intros ? [=].
Ltac wf_shape := intros ? [= <-]; split; reflexivity.
Ltac given_by := eexists; split; [reflexivity|]; split; [reflexivity|typed_by].

(** RNN backwards over sequences of length 3, with bias, an initial state and Relu. *)
Definition rnn_node : rnode := mkNode "RNN" "n" [rarg "x" 3; rweight "w" 3; rweight "r" 3; rweight "b" 2; left_out; rarg "h" 3] [rarg "y" 4; rarg "yh" 3]
  [("hidden_size", AInt 2); ("direction", AString "reverse"); ("activations", AStrings ["Relu"])]%string.
Definition rnn_w : @weights Z := mkW 1 2 3 (ints [1; 2; 3] 1) (ints [1; 2; 2] 3) (Some (ints [1; 4] 2)).
Definition rnn_consts := [("w"%string, ints [1; 2; 3] 1); ("r"%string, ints [1; 2; 2] 3); ("b"%string, ints [1; 4] 2)].
Definition rnn_vars := [("x"%string, ints [3; 2; 3] 0); ("h"%string, ints [1; 2; 2] 4)].
Example C64_rnn_case :
  recurrent_inputs (const_of rnn_consts) (of_list rnn_vars) rnn_node false Reverse 3 2 (ints [3; 2; 3] 0) rnn_w (Some (ints [1; 2; 2] 4)) /\
  attrs_among rnn_node ["hidden_size"; "direction"; "layout"; "activations"]%string /\
  direction_attr rnn_node Reverse /\ layout_attr rnn_node false /\ activations_attr rnn_node Reverse [Tanh] [Relu] /\ supported Relu /\
  distinct_outputs rnn_node /\
  exists outs Y, zrun (const_of rnn_consts) KRnn rnn_node "f" (of_list rnn_vars) = Some outs /\ sget outs "yh" = Some Y /\ Y = mkT [1; 2; 2] [0; 17; 5; 7]%Z.
Proof.
  split; [|split; [|split; [|split; [|split; [|split; [|split]]]]]].
  - split; [|split; [|split; [|split; [|split; [|split; [|split; [|split]]]]]]]; try reflexivity.
    + eexists _, _, _, _. split; [reflexivity|]. split; [reflexivity|]. split; [typed_by|]. split; [reflexivity|]. split; [typed_by|]. split; [reflexivity|typed_by].
    + split; [reflexivity|]. split; [reflexivity|]. split; [reflexivity|]. split; [reflexivity|]. wf_shape.
    + given_by.
    + given_by.
    + wf_shape.
    + intros a Ha. unfold const_of, is_optional in *. destruct (asrc a); try discriminate; reflexivity.
  - intros k a Hk. cbn in Hk. intuition (subst; match goal with H : (_, _) = (_, _) |- _ => injection H as <- _ end; cbn; auto 12).
  - reflexivity.
  - reflexivity.
  - split; reflexivity.
  - cbn. auto.
  - apply distinct_ok. repeat constructor; cbn; intuition discriminate.
  - eexists _, _. split; [vm_compute; reflexivity|]. split; reflexivity.
Qed.

Ltac inputs_by :=
  split; [|split; [|split; [|split; [|split; [|split; [|split; [|split]]]]]]];
  [ eexists _, _, _, _; split; [reflexivity|]; split; [reflexivity|]; split; [typed_by|]; split; [reflexivity|]; split; [typed_by|]; split; [reflexivity|typed_by]
  | reflexivity | reflexivity
  | split; [reflexivity|]; split; [reflexivity|]; split; [reflexivity|]; split; [reflexivity|]; first [wf_shape|intros ? [=]]
  | first [given_by|reflexivity] | reflexivity | first [given_by|reflexivity] | first [wf_shape|intros ? [=]]
  | let a := fresh in let Ha := fresh in intros a Ha; unfold const_of, is_optional in *; destruct (asrc a); try discriminate; reflexivity ].
Ltac attrs_by := let k := fresh in let a := fresh in let Hk := fresh in
  intros k a Hk; cbn in Hk; intuition (subst; match goal with H : (_, _) = (_, _) |- _ => injection H as <- _ end; cbn; auto 12).

(** GRU in both directions, batch first, with the reset gate after the product. *)
Definition gru_node : rnode := mkNode "GRU" "n" [rarg "x" 3; rweight "w" 3; rweight "r" 3; rweight "b" 2] [rarg "y" 4; rarg "" 3]
  [("hidden_size", AInt 2); ("direction", AString "bidirectional"); ("linear_before_reset", AInt 1); ("layout", AInt 1)]%string.
Definition gru_w : @weights Z := mkW 3 2 3 (ints [2; 6; 3] 1) (ints [2; 6; 2] 3) (Some (ints [2; 12] 2)).
Definition gru_consts := [("w"%string, ints [2; 6; 3] 1); ("r"%string, ints [2; 6; 2] 3); ("b"%string, ints [2; 12] 2)].
Definition gru_vars := [("x"%string, ints [1; 2; 3] 0)].
Example C64_gru_case :
  recurrent_inputs (const_of gru_consts) (of_list gru_vars) gru_node true Bidirectional 2 1 (ints [1; 2; 3] 0) gru_w None /\
  attrs_among gru_node ["hidden_size"; "direction"; "layout"; "activations"; "linear_before_reset"]%string /\
  direction_attr gru_node Bidirectional /\ layout_attr gru_node true /\ activations_attr gru_node Bidirectional [Sigmoid; Tanh] [Sigmoid; Tanh] /\
  flag_attr gru_node "linear_before_reset" true /\ distinct_outputs gru_node /\
  exists outs Y, zrun (const_of gru_consts) KGru gru_node "f" (of_list gru_vars) = Some outs /\ sget outs "y" = Some Y /\ tshape Y = [1; 2; 2; 2] /\ get Y [0; 0; 1; 1] <> Some 0%Z.
Proof.
  split; [|split; [|split; [|split; [|split; [|split; [|split]]]]]].
  - inputs_by.
  - attrs_by.
  - reflexivity.
  - reflexivity.
  - reflexivity.
  - reflexivity.
  - apply distinct_ok. repeat constructor; cbn; intuition discriminate.
  - eexists _, _. split; [vm_compute; reflexivity|]. split; [reflexivity|]. split; [reflexivity|]. vm_compute. discriminate.
Qed.

(** LSTM with both initial states, without bias, all three outputs. *)
Definition lstm_node (ins : list arg) (attrs : list (string * attr)) : rnode :=
  mkNode "LSTM" "n" ins [rarg "y" 4; rarg "yh" 3; rarg "yc" 3] (("hidden_size"%string, AInt 2) :: attrs).
Definition lstm_ins : list arg := [rarg "x" 3; rweight "w" 3; rweight "r" 3; left_out; left_out; rarg "h" 3; rarg "c" 3].
Definition lstm_w : @weights Z := mkW 4 2 3 (ints [1; 8; 3] 1) (ints [1; 8; 2] 3) None.
Definition lstm_consts := [("w"%string, ints [1; 8; 3] 1); ("r"%string, ints [1; 8; 2] 3)].
Definition lstm_vars := [("x"%string, ints [2; 2; 3] 0); ("h"%string, ints [1; 2; 2] 4); ("c"%string, ints [1; 2; 2] 3)].
Definition lstm_z (v : list (string * tensor Z)) (n : rnode) := zrun (const_of lstm_consts) KLstm n "f" (of_list v).
Example C64_lstm_case :
  let n := lstm_node lstm_ins [("input_forget"%string, AInt 0)] in
  recurrent_inputs (const_of lstm_consts) (of_list lstm_vars) n false Forward 2 2 (ints [2; 2; 3] 0) lstm_w (Some (ints [1; 2; 2] 4)) /\
  optional_input (fun a => of_list lstm_vars (aname a)) n 6 3 (Some (ints [1; 2; 2] 3)) /\ initial_ok false (Some (ints [1; 2; 2] 3)) (directions Forward) 2 2 /\ given n 7 = None /\
  attrs_among n ["hidden_size"; "direction"; "layout"; "activations"; "input_forget"]%string /\
  direction_attr n Forward /\ layout_attr n false /\ activations_attr n Forward [Sigmoid; Tanh; Tanh] [Sigmoid; Tanh; Tanh] /\
  flag_attr n "input_forget" false /\ distinct_outputs n /\
  exists outs Y, lstm_z lstm_vars n = Some outs /\ sget outs "yc" = Some Y /\ tshape Y = [1; 2; 2] /\ get Y [0; 1; 0] <> Some 0%Z.
Proof.
  cbv zeta. split; [|split; [|split; [|split; [|split; [|split; [|split; [|split; [|split; [|split]]]]]]]]].
  - inputs_by.
  - given_by.
  - wf_shape.
  - reflexivity.
  - attrs_by.
  - reflexivity.
  - reflexivity.
  - reflexivity.
  - reflexivity.
  - apply distinct_ok. repeat constructor; cbn; intuition discriminate.
  - eexists _, _. split; [vm_compute; reflexivity|]. split; [reflexivity|]. split; [reflexivity|]. vm_compute. discriminate.
Qed.

(** ** What does not hold *)
(** With layout 1, an LSTM in one direction gives Y and Y_h with their dimensions in the
    wrong order. *)
Theorem C64_layout_refuted : exists (value : arg -> option (tensor Z)) (e : string -> option (tensor Z)) (n : rnode) (X : tensor Z) (w : weights) (outs : list (string * tensor Z)) (Y Yh : tensor Z),
  recurrent_inputs value e n true Forward 2 3 X w None /\ gates w = 4 /\ layout_attr n true /\ direction_attr n Forward /\
  zrun value KLstm n "f" e = Some outs /\ sget outs "y" = Some Y /\ sget outs "yh" = Some Yh /\
  let step := fun d => lstm_step Z.add Z.mul 0%Z zminus1 w d (zact Sigmoid) (zact Tanh) (zact Tanh) false in
  let s0 := fun d b => (initial 0%Z true None d b, initial 0%Z true None d b) in
  ~ outputs_all 0%Z true step s0 fst Forward (hidden w) X Y /\ ~ outputs_last 0%Z true step s0 fst Forward (hidden w) X Yh.
Proof.
  exists (const_of lstm_consts), (of_list [("x"%string, ints [3; 2; 3] 0)]), (lstm_node [rarg "x" 3; rweight "w" 3; rweight "r" 3] [("layout"%string, AInt 1)]), (ints [3; 2; 3] 0), lstm_w.
  eexists _, _, _. split; [inputs_by|]. split; [reflexivity|]. split; [reflexivity|]. split; [reflexivity|]. split; [vm_compute; reflexivity|]. split; [reflexivity|]. split; [reflexivity|].
  cbv zeta. split; intros (len & batch & inp & SX & _ & SY & _); vm_compute in SX; cbn in SY; injection SX as <- <- <-; discriminate.
Qed.
Print Assumptions C64_layout_refuted.

(** An LSTM that is given only one of the two initial states uses zeros for both. *)
Theorem C64_one_state_refuted : exists (value : arg -> option (tensor Z)) (e : string -> option (tensor Z)) (n : rnode) (X h0 : tensor Z) (w : weights) (outs : list (string * tensor Z)) (Yh : tensor Z),
  recurrent_inputs value e n false Forward 2 2 X w (Some h0) /\ gates w = 4 /\ layout_attr n false /\ direction_attr n Forward /\ given n 6 = None /\
  zrun value KLstm n "f" e = Some outs /\ sget outs "yh" = Some Yh /\
  let step := fun d => lstm_step Z.add Z.mul 0%Z zminus1 w d (zact Sigmoid) (zact Tanh) (zact Tanh) false in
  ~ outputs_last 0%Z false step (fun d b => (initial 0%Z false (Some h0) d b, initial 0%Z false None d b)) fst Forward (hidden w) X Yh.
Proof.
  exists (const_of lstm_consts), (of_list lstm_vars), (lstm_node [rarg "x" 3; rweight "w" 3; rweight "r" 3; left_out; left_out; rarg "h" 3] []), (ints [2; 2; 3] 0), (ints [1; 2; 2] 4), lstm_w.
  eexists _, _. split; [inputs_by|]. split; [reflexivity|]. split; [reflexivity|]. split; [reflexivity|]. split; [reflexivity|]. split; [vm_compute; reflexivity|]. split; [reflexivity|].
  cbv zeta. intros (len & batch & inp & SX & _ & SY & G). vm_compute in SX. injection SX as <- <- <-.
  pose proof (G 0 0 0 eq_refl eq_refl eq_refl) as G1. pose proof (G 0 0 1 eq_refl eq_refl eq_refl) as G2. pose proof (G 0 1 0 eq_refl eq_refl eq_refl) as G3. pose proof (G 0 1 1 eq_refl eq_refl eq_refl) as G4.
  vm_compute in G1, G2, G3, G4. first [discriminate G1|discriminate G2|discriminate G3|discriminate G4].
Qed.
Print Assumptions C64_one_state_refuted.

(** With one input feature the weights cannot be stored: [squeeze] removes that dimension
    too. *)
Theorem C64_size_one_refuted : exists (value : arg -> option (tensor Z)) (e : string -> option (tensor Z)) (n : rnode) (X : tensor Z) (w : weights),
  recurrent_inputs value e n false Forward 2 2 X w None /\ gates w = 4 /\ input w = 1 /\ layout_attr n false /\ direction_attr n Forward /\
  (exists tys, infer_recur value KLstm n = IOk tys) /\ zrun value KLstm n "f" e = None.
Proof.
  exists (const_of [("w"%string, ints [1; 8; 1] 1); ("r"%string, ints [1; 8; 2] 3)]), (of_list [("x"%string, ints [2; 2; 1] 0)]), (lstm_node [rarg "x" 3; rweight "w" 3; rweight "r" 3] []),
    (ints [2; 2; 1] 0), (mkW 4 2 1 (ints [1; 8; 1] 1) (ints [1; 8; 2] 3) None).
  split; [inputs_by|]. split; [reflexivity|]. split; [reflexivity|]. split; [reflexivity|]. split; [reflexivity|]. split; [eexists; vm_compute; reflexivity|]. vm_compute. reflexivity.
Qed.
Print Assumptions C64_size_one_refuted.

(** Weights computed by the graph are accepted, but nothing is stored for the module and it
    cannot be loaded. *)
Theorem C64_dynamic_weights_refuted : exists (value : arg -> option (tensor Z)) (e : string -> option (tensor Z)) (n : rnode),
  (forall a, value a = None) /\ (exists tys, infer_recur value KRnn n = IOk tys) /\ (forall a, In a (ninputs n) -> e (aname a) <> None) /\
  zrun value KRnn n "f" e = None.
Proof.
  exists (fun _ => None), (of_list [("x"%string, ints [3; 2; 3] 0); ("w"%string, ints [1; 2; 3] 1); ("r"%string, ints [1; 2; 2] 3)]),
    (mkNode "RNN" "n" [rarg "x" 3; mkArg "w" (TensorT (mkTT F32 3 (Some [Some 1; Some 2; Some 3]))) VDynamic; rarg "r" 3] [rarg "y" 4] [("hidden_size"%string, AInt 2)]).
  split; [reflexivity|]. split; [eexists; vm_compute; reflexivity|]. split; [|vm_compute; reflexivity].
  intros a Ha. cbn in Ha. destruct Ha as [<-|[<-|[<-|[]]]]; vm_compute; discriminate.
Qed.
Print Assumptions C64_dynamic_weights_refuted.

(** The parameters of the activations have no effect. *)
Theorem C64_parameters_unused : forall (value : arg -> option (tensor Z)) (k : rkind) (ty nm : string) (ins outs : list arg) (attrs : list (string * attr)) (field : string) (e : string -> option (tensor Z)) (p : list N),
  zrun value k (mkNode ty nm ins outs (("activation_alpha"%string, AFloats p) :: attrs)) field e = zrun value k (mkNode ty nm ins outs attrs) field e.
Proof. intros. destruct k; reflexivity. Qed.
Print Assumptions C64_parameters_unused.
