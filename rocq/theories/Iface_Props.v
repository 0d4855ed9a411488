(** C75: the interface of the generated [forward]. *)
From Verif Require Import IR_Model Iface_Spec Iface_Model Iface_Proofs.

Lemma ident_par a : ident (aname a) -> aname a <> ")"%string /\ aname a <> "("%string.
Proof. unfold ident. intros H. split; intros E; rewrite E in H; discriminate H. Qed.

(** The nodes and the graph agree about the types of the graph's inputs. *)
Definition typed (g : igraph) : Prop :=
  forall a n b, In a (ig_ins g) -> In n (ig_nodes g) -> In b (fst n) -> aname b = aname a -> aty b = aty a.

(** For every graph, the text generated for [forward] reads as a method that
    takes one parameter for each input of the graph, in order, under its name and
    with the type a user expects for it, and returns the outputs in order: the
    only one as it is, several as a tuple.  The returned expression names them in
    the same order. *)
Theorem C75_signature : forall g,
  typed g -> Forall (fun a => ident (aname a)) (ig_ins g) -> Forall (fun a => ident (aname a)) (ig_outs g) ->
  exists p, codegen g = Some p
    /\ read_header (header p)
       = Some (map (fun a => (aname a, public_type (aty a))) (ig_ins g),
               result_type (map (fun a => public_type (aty a)) (ig_outs g)), [])
    /\ read_return (ending p) = Some (map aname (ig_outs g)).
Proof.
  intros g Ht Hi Ho. destruct (register_ok g Ht) as [i [o [Hr [Li Lo]]]].
  unfold codegen. rewrite Hr.
  pose proof (convert_list i []) as Ci. pose proof (convert_list o []) as Co.
  destruct (convert i []) as [ci mi]. destruct (convert o []) as [co mo]. cbn [fst] in Ci, Co. subst ci co.
  eexists. split; [reflexivity|]. cbn [header ending].
  pose proof (like_names _ _ Li) as Ni. pose proof (like_types _ _ Li) as Ti.
  pose proof (like_names _ _ Lo) as No. pose proof (like_types _ _ Lo) as To.
  assert (Hpar : forall l (m : list arg), map aname l = map aname m -> Forall (fun a => ident (aname a)) m ->
            Forall (fun a => aname a <> ")"%string /\ aname a <> "("%string) (map nativize l)).
  { intros l m E Hm. rewrite Forall_forall in *. intros a Ha. apply in_map_iff in Ha. destruct Ha as [b [<- Hb]].
    apply ident_par. rewrite nativize_name. apply (in_map aname) in Hb. rewrite E in Hb. apply in_map_iff in Hb.
    destruct Hb as [c [<- Hc]]. apply Hm. exact Hc. }
  assert (Hplain : forall l, Forall plain (map nativize l)).
  { intros l. rewrite Forall_forall. intros a Ha. apply in_map_iff in Ha. destruct Ha as [b [<- _]]. apply nativize_plain. }
  split.
  - cbn [app]. unfold read_header. cbn [String.eqb Ascii.eqb Bool.eqb andb].
    rewrite read_params_ok.
    + cbn [String.eqb Ascii.eqb Bool.eqb]. rewrite (read_return_type_ok _ ["{"%string]); [|apply Hplain|cbn; auto].
      cbn [String.eqb Ascii.eqb Bool.eqb]. f_equal. f_equal. f_equal.
      * rewrite map_map. clear - Ni Ti. revert Ni Ti. generalize (ig_ins g). induction i as [|a i IH]; intros [|b l] N T; try discriminate; [reflexivity|].
        cbn [map] in *. injection N as N1 N2. injection T as T1 T2. rewrite nativize_name, nativize_type, N1, T1, (IH l N2 T2). reflexivity.
      * f_equal. rewrite map_map. clear - To. revert To. generalize (ig_outs g). induction o as [|a o IH]; intros [|b l] T; try discriminate; [reflexivity|].
        cbn [map] in *. injection T as T1 T2. rewrite nativize_type, T1, (IH l T2). reflexivity.
    + apply Hplain.
    + eapply Forall_impl; [|exact (Hpar i (ig_ins g) Ni Hi)]. cbn. tauto.
    + rewrite !app_length. unfold codegen_fn_params.
      pose proof (commas_length (fun a => [arg_ident a; ":"%string] ++ arg_type_tokens a) (map nativize i)) as Hc.
      assert (length (map nativize i) <= length (commas (map (fun a => [arg_ident a; ":"%string] ++ arg_type_tokens a) (map nativize i))))
        by (apply Hc; intros y; cbn; lia).
      cbn [length] in *. lia.
  - rewrite read_return_ok.
    + f_equal. rewrite map_map. rewrite <- No. apply map_ext. intros a. apply nativize_name.
    + exact (Hpar o (ig_outs g) No Ho).
Qed.
Print Assumptions C75_signature.

(** Whatever the caller passes, when the code of the nodes starts each input of
    the graph is bound to the value passed for it, moved to the device if the
    graph keeps that scalar there, and nothing else is bound. *)
Theorem C75_arguments : forall (V W : Type) (up down : dtype -> V -> V) g (vs : list (rval V W)),
  typed g -> NoDup (map aname (ig_ins g)) -> Forall2 (fun a v => passes (aty a) v) (ig_ins g) vs ->
  exists p e, codegen g = Some p /\ brun up down (prologue p) (bind (map aname (ig_ins g)) vs) = Some e
    /\ (forall i a v, nth_error (ig_ins g) i = Some a -> nth_error vs i = Some v -> e (aname a) = Some (inside up (aty a) v))
    /\ (forall x, ~ In x (map aname (ig_ins g)) -> e x = None).
Proof.
  intros V W up down g vs Ht Hnd Hv. destruct (register_ok g Ht) as [i [o [Hr [Li Lo]]]].
  unfold codegen. rewrite Hr.
  pose proof (convert_list i []) as Ci.
  assert (Hg : forall a, In a i -> get (snd (convert i [])) (aname a) = scalar_of a).
  { intros a Ha. apply convert_get; [rewrite (like_names _ _ Li); exact Hnd|reflexivity|exact Ha]. }
  destruct (convert i []) as [ci mi]. destruct (convert o []) as [co mo]. cbn [fst snd] in Ci, Hg. subst ci.
  assert (Hpos : forall a, In a i -> exists k b v, nth_error (ig_ins g) k = Some b /\ nth_error vs k = Some v /\ passes (aty b) v /\ like a b).
  { intros a Ha. apply In_nth_error in Ha. destruct Ha as [k Hk]. exists k.
    clear - Li Hv Hk. revert vs k Hv Hk. induction Li as [|x y i l Hxy _ IH]; intros vs k Hv Hk; [destruct k; discriminate|].
    inversion Hv as [|? w ? vs' Hw Hv']; subst. destruct k as [|k].
    - cbn in Hk. injection Hk as <-. exists y, w. auto.
    - apply (IH vs' k Hv' Hk). }
  destruct (wraps_run (W := W) up down i (get mi)) with (e := bind (map aname (ig_ins g)) vs) as [e [Hrun [H1 H2]]].
  - rewrite (like_names _ _ Li). exact Hnd.
  - intros a Ha. destruct (Hpos a Ha) as [k [b [v [Hk [Hvk [Hp [Hn Hty]]]]]]]. exists v. split; [|rewrite Hty; exact Hp].
    rewrite Hn. apply (bind_get _ vs k); [exact Hnd| |exact Hvk]. apply map_nth_error. exact Hk.
  - exact Hg.
  - eexists. exists e. split; [reflexivity|]. cbn [prologue]. unfold input_conversions. rewrite flat_map_map.
    split; [|split].
    + rewrite <- Hrun. f_equal. apply flat_map_ext. intros a. rewrite nativize_name. reflexivity.
    + intros k b v Hk Hvk.
      assert (exists a, In a i /\ like a b) as [a [Ha [Hn Hty]]].
      { clear - Li Hk. revert k Hk. induction Li as [|x y i l Hxy _ IH]; intros k Hk; [destruct k; discriminate|].
        destruct k as [|k]; [cbn in Hk; injection Hk as <-; exists x; split; [left; reflexivity|exact Hxy]|].
        destruct (IH k Hk) as [a [Ha HR]]. exists a. split; [right; exact Ha|exact HR]. }
      rewrite <- Hn, <- Hty. apply H1; [exact Ha|]. rewrite Hn.
      apply (bind_get _ vs k); [exact Hnd| |exact Hvk]. apply map_nth_error. exact Hk.
    + intros x Hx. rewrite H2 by (rewrite (like_names _ _ Li); exact Hx).
      clear - Hx. revert vs Hx. generalize (map aname (ig_ins g)). induction l as [|y l IH]; intros vs Hx; [reflexivity|].
      destruct vs as [|v vs]; [reflexivity|]. cbn [bind]. unfold put. cbn [In] in Hx.
      destruct (String.eqb y x) eqn:E; [apply String.eqb_eq in E; tauto|]. apply IH. tauto.
Qed.
Print Assumptions C75_arguments.

(** Whatever values the nodes computed for the outputs of the graph, those that
    [forward] returns are these values, made native numbers if they are scalars
    on the device. *)
Theorem C75_results : forall (V W : Type) (up down : dtype -> V -> V) g (e : string -> option (rval V W)),
  typed g -> NoDup (map aname (ig_outs g)) ->
  (forall a, In a (ig_outs g) -> exists v, e (aname a) = Some v /\ computes (aty a) v) ->
  exists p e', codegen g = Some p /\ brun up down (epilogue p) e = Some e'
    /\ forall a v, In a (ig_outs g) -> e (aname a) = Some v -> e' (aname a) = Some (outside down (aty a) v).
Proof.
  intros V W up down g e Ht Hnd Hv. destruct (register_ok g Ht) as [i [o [Hr [Li Lo]]]].
  unfold codegen. rewrite Hr.
  pose proof (convert_list o []) as Co.
  assert (Hg : forall a, In a o -> get (snd (convert o [])) (aname a) = scalar_of a).
  { intros a Ha. apply convert_get; [rewrite (like_names _ _ Lo); exact Hnd|reflexivity|exact Ha]. }
  destruct (convert i []) as [ci mi]. destruct (convert o []) as [co mo]. cbn [fst snd] in Co, Hg. subst co.
  assert (Hin : forall a, In a o -> exists b, In b (ig_outs g) /\ like a b).
  { intros a Ha. clear - Lo Ha. induction Lo as [|x y l m Hxy _ IH]; [destruct Ha|].
    destruct Ha as [<-|Ha]; [exists y; split; [left; reflexivity|exact Hxy]|]. destruct (IH Ha) as [b [Hb HR]]. exists b. split; [right; exact Hb|exact HR]. }
  assert (Hout : forall b, In b (ig_outs g) -> exists a, In a o /\ like a b).
  { intros a Ha. clear - Lo Ha. induction Lo as [|x y l m Hxy _ IH]; [destruct Ha|].
    destruct Ha as [<-|Ha]; [exists x; split; [left; reflexivity|exact Hxy]|]. destruct (IH Ha) as [b [Hb HR]]. exists b. split; [right; exact Hb|exact HR]. }
  destruct (unwraps_run (W := W) up down o (get mo)) with (e := e) as [e' [Hrun [H1 _]]].
  - rewrite (like_names _ _ Lo). exact Hnd.
  - intros a Ha. destruct (Hin a Ha) as [b [Hb [Hn Hty]]]. rewrite Hn, Hty. apply Hv. exact Hb.
  - exact Hg.
  - eexists. exists e'. split; [reflexivity|]. cbn [epilogue]. unfold output_conversions. rewrite flat_map_map. split.
    + rewrite <- Hrun. f_equal. apply flat_map_ext. intros a. rewrite nativize_name. reflexivity.
    + intros b v Hb Hvb. destruct (Hout b Hb) as [a [Ha [Hn Hty]]]. rewrite <- Hn, <- Hty. apply H1; [exact Ha|]. rewrite Hn. exact Hvb.
Qed.
Print Assumptions C75_results.

(** ** A case: an image, a scalar kept on the device, a shape; two results. *)
Local Open Scope string_scope.
Definition ten (x : string) (d : dtype) (r : N) : arg := mkArg x (TensorT (mkTT d r None)) VDynamic.
Definition demo : igraph := mkGraph
  [([ten "img" F32 4; mkArg "scale" (ScalarTensor F16) VDynamic], [ten "y" F32 4]);
   ([ten "y" F32 4; mkArg "dims" (ShapeT 2) VDynamic], [mkArg "n" (ScalarTensor I64) VDynamic])]
  [ten "img" F32 4; mkArg "scale" (ScalarTensor F16) VDynamic; mkArg "dims" (ShapeT 2) VDynamic; ten "unused" BoolT 1]
  [mkArg "n" (ScalarTensor I64) VDynamic; ten "y" F32 4].

Example C75_demo_typed : typed demo.
Proof.
  intros a n b Ha Hn Hb E. cbn in Ha, Hn.
  destruct Hn as [<-|[<-|[]]]; cbn in Hb; destruct Ha as [<-|[<-|[<-|[<-|[]]]]];
    repeat (destruct Hb as [<-|Hb]; [try reflexivity; discriminate E|]); destruct Hb.
Qed.
Example C75_demo : option_map (fun p => read_header (header p)) (codegen demo)
  = Some (Some ([("img", RTensor 4 KFloat); ("scale", RPrim ["half"; "f16"]); ("dims", RArray 2); ("unused", RTensor 1 KBool)],
                RTuple [RPrim ["i64"]; RTensor 4 KFloat], [])).
Proof. reflexivity. Qed.
Example C75_demo_conversions : option_map (fun p => (prologue p, epilogue p)) (codegen demo)
  = Some ([Wrap "scale" KFloat F16], [Unwrap "n" I64]).
Proof. reflexivity. Qed.
Example C75_demo_names : Forall (fun a => ident (aname a)) (ig_ins demo) /\ NoDup (map aname (ig_ins demo)).
Proof. split; [repeat constructor|repeat constructor; cbn; intuition discriminate]. Qed.

(** The header does not tell element types of the same kind apart: a caller of a
    model with an input of doubles is not asked for doubles. *)
Theorem C75_element_type_refuted : exists g g', typed g /\ typed g'
  /\ map aty (ig_ins g) <> map aty (ig_ins g') /\ option_map header (codegen g) = option_map header (codegen g').
Proof.
  exists (mkGraph [] [ten "x" F32 2] [ten "x" F32 2]), (mkGraph [] [ten "x" F64 2] [ten "x" F64 2]).
  split; [intros a n b _ []|]. split; [intros a n b _ []|]. split; [discriminate|reflexivity].
Qed.
Print Assumptions C75_element_type_refuted.

(** Without agreement the header follows the last node that reads the input, not
    the graph. *)
Theorem C75_declared_type_refuted : exists g p, codegen g = Some p
  /\ option_map (fun r => fst (fst r)) (read_header (header p)) <> Some (map (fun a => (aname a, public_type (aty a))) (ig_ins g)).
Proof.
  exists (mkGraph [([ten "x" I64 2], [ten "y" F32 2])] [ten "x" F32 2] [ten "y" F32 2]). eexists.
  split; [reflexivity|]. discriminate.
Qed.
Print Assumptions C75_declared_type_refuted.
