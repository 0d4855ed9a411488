(** A semantics with the laws of attention, and two graphs that run. *)
From Flocq Require Import Core BinarySingleNaN.
From Verif Require Import Attention_Spec Attention_Model Attention_Cond.
From Verif Require Import Tensor_Spec.
From Coq Require Import Lra Lia.
Open Scope string_scope. Open Scope list_scope. Open Scope N_scope.

Definition swap_axis (attrs : list (string * attr)) : list Z := match sget attrs "perm" with Some (AInts p) => p | _ => [] end.
Definition last_axis (attrs : list (string * attr)) : bool :=
  match sget attrs "axis" with None => true | Some (AInt z) => Z.eqb z (-1) || Z.eqb z 3 | _ => false end%bool.

Definition demo_sem : rsem := fun ty attrs _ vs =>
  if String.eqb ty "MatMul" then
    match vs with
    | [Some x; Some y] =>
        match tshape x, tshape y with
        | [b; h; m; k], [b'; h'; k'; n] =>
            if ((b =? b') && (h =? h') && (k =? k'))%bool
            then Some [mk4 b h m n (fun i j r c => total k (fun t => rd x [i; j; r; t] * rd y [i; j; t; c])%R)] else None
        | _, _ => None
        end
    | _ => None
    end
  else if String.eqb ty "Softmax" then
    match vs with
    | [Some x] =>
        match tshape x with
        | [b; h; m; n] => if last_axis attrs then Some [mk4 b h m n (fun i j r c => soft n (fun k => rd x [i; j; r; k]) c)] else None
        | _ => None
        end
    | _ => None
    end
  else if String.eqb ty "Transpose" then
    match vs with
    | [Some x] =>
        match tshape x, swap_axis attrs with
        | [b; h; m; n], [0; 1; 3; 2]%Z => Some [mk4 b h n m (fun i j r c => rd x [i; j; c; r])]
        | [b; h; m; n], [0; 2; 1; 3]%Z => Some [mk4 b m h n (fun i j r c => rd x [i; r; j; c])]
        | [b; h; m; n], [0; 2; 3; 1]%Z => Some [mk4 b m n h (fun i j r c => rd x [i; c; j; r])]
        | _, _ => None
        end
    | _ => None
    end
  else if String.eqb ty "Attention" then
    match attrs with
    | [] | [("scale", AFloat _)] =>
        match vs with
        | Some q :: Some k :: Some v :: rest =>
            match tshape q, tshape k, tshape v with
            | [b; h; m; d], [_; _; n; _], [_; _; _; e] =>
                let s := match attrs with [(_, AFloat w)] => f32_real w | _ => (/ sqrt (IZR (Z.of_N d)))%R end in
                match rest with
                | [] => Some [attended b h m n d e s no_bias q k v]
                | [Some mask] => option_map (fun s4 => [attended b h m n d e s (bias_of mask s4) q k v]) (mask4 (tshape mask))
                | _ => None
                end
            | _, _, _ => None
            end
        | _ => None
        end
    | _ => None
    end
  else
    match vs with
    | [Some x; Some y] =>
        if String.eqb ty "Add" then option_map (fun r => [r]) (elementwise Rplus x y)
        else if String.eqb ty "Mul" then option_map (fun r => [r]) (elementwise Rmult x y)
        else if String.eqb ty "Div" then option_map (fun r => [r]) (elementwise Rdiv x y)
        else None
    | _ => None
    end.

Lemma demo_laws : attention_laws demo_sem.
Proof.
  split.
  - intros attrs o x y b h m k n Hx Hy. unfold demo_sem. cbn [String.eqb Ascii.eqb Bool.eqb]. rewrite Hx, Hy, !N.eqb_refl. reflexivity.
  - intros attrs o x b h m n Hx Ha. unfold demo_sem. cbn [String.eqb Ascii.eqb Bool.eqb]. rewrite Hx.
    assert (last_axis attrs = true) as ->; [|reflexivity]. unfold last_axis. destruct Ha as [<-|[<-|[<-|[]]]]; reflexivity.
  - intros attrs o x b h m n Hx Hp. unfold demo_sem, swap_axis. cbn [String.eqb Ascii.eqb Bool.eqb]. rewrite Hx, Hp. reflexivity.
  - intros attrs o x y. reflexivity.
  - intros attrs o x y. reflexivity.
  - intros attrs o x y. reflexivity.
  - intros attrs o q k v b h m n d e s Hq Hk Hv Hs. unfold demo_sem. cbn [String.eqb Ascii.eqb Bool.eqb]. rewrite Hq, Hk, Hv.
    assert (E : match attrs with [(_, AFloat w)] => f32_real w | _ => (/ sqrt (IZR (Z.of_N d)))%R end = s).
    { destruct Hs as [(w & -> & ->)|[-> ->]]; reflexivity. }
    assert (Hat : attrs = [] \/ exists w, attrs = [("scale", AFloat w)]) by (destruct Hs as [(w & -> & _)|[-> _]]; eauto).
    split; [|intros mask s4 Hm Hb]; rewrite ?E; destruct Hat as [->|[w ->]]; cbn [String.eqb Ascii.eqb Bool.eqb]; cbn in E; rewrite ?E, ?Hm; reflexivity.
  - intros ty attrs o vs outs H. unfold demo_sem in H. split; intros Hin.
    + destruct Hin as [<-|[<-|[<-|[<-|[]]]]]; cbn [String.eqb Ascii.eqb Bool.eqb] in H; destruct vs as [|[x|] [|[y|] [|? ?]]]; try discriminate; eauto.
    + destruct Hin as [<-|[<-|[]]]; cbn [String.eqb Ascii.eqb Bool.eqb] in H; destruct vs as [|[x|] [|? ?]]; try discriminate; eauto.
Qed.

Definition t4 (x : string) : arg := mkArg x (TensorT (mkTT F32 4 None)) VDynamic.
Definition t2 (x : string) : arg := mkArg x (TensorT (mkTT F32 2 None)) VDynamic.
Definition t0 (x : string) : arg := mkArg x (TensorT (mkTT F32 0 None)) (VStatic 0).

(** The usual chain, with a mask and a division by 2. *)
Definition chain : list rnode :=
  [ mkNode "Transpose" "tr" [t4 "k"] [t4 "kt"] [("perm", AInts [0; 1; 3; 2]%Z)];
    mkNode "MatMul" "mm" [t4 "q"; t4 "kt"] [t4 "s"] [];
    mkNode "Div" "div" [t4 "s"; t0 "two"] [t4 "s2"] [];
    mkNode "Add" "add" [t4 "s2"; t2 "mask"] [t4 "s3"] [];
    mkNode "Softmax" "sm" [t4 "s3"] [t4 "p"] [("axis", AInt (-1))];
    mkNode "MatMul" "mv" [t4 "p"; t4 "v"] [t4 "out"] [] ].
Definition chain_scalar (a : arg) : reading := if String.eqb (aname a) "two" then Number (f64_of_Z 2) else NoValue.
Definition chain_static (id : N) : option rt := if id =? 0 then Some (mkT [] [2%R]) else None.
Definition chain_given (dq dk dv : list R) (m : N -> N -> R) : string -> option rt := fun x =>
  if String.eqb x "q" then Some (mkT [1; 1; 2; 2] dq)
  else if String.eqb x "k" then Some (mkT [1; 1; 3; 2] dk)
  else if String.eqb x "v" then Some (mkT [1; 1; 3; 1] dv)
  else if String.eqb x "mask" then Some (mk [2; 3] (fun i => match i with [a; b] => m a b | _ => 0%R end)) else None.

(** Both operands of the product multiplied by 2 before. *)
Definition prechain : list rnode :=
  [ mkNode "Transpose" "trq" [t4 "q"] [t4 "qt"] [("perm", AInts [0; 2; 1; 3]%Z)];
    mkNode "Transpose" "trk" [t4 "k"] [t4 "kt"] [("perm", AInts [0; 2; 3; 1]%Z)];
    mkNode "Mul" "mulq" [t4 "qt"; t0 "two"] [t4 "qs"] [];
    mkNode "Mul" "mulk" [t4 "kt"; t0 "two"] [t4 "ks"] [];
    mkNode "MatMul" "mm" [t4 "qs"; t4 "ks"] [t4 "s"] [];
    mkNode "Softmax" "sm" [t4 "s"] [t4 "p"] [];
    mkNode "MatMul" "mv" [t4 "p"; t4 "v"] [t4 "out"] [] ].
Definition prechain_given (dq dk dv : list R) : string -> option rt := fun x =>
  if String.eqb x "q" then Some (mkT [1; 2; 1; 2] dq)
  else if String.eqb x "k" then Some (mkT [1; 3; 1; 2] dk)
  else if String.eqb x "v" then Some (mkT [1; 1; 3; 1] dv) else None.


(** What running a graph leaves; the new graph. *)
Definition ran (e0 : string -> option rt) (ns : list rnode) : string -> option rt :=
  match run demo_sem chain_static e0 ns with Some e => e | None => fun _ => None end.
Definition coalesced (ns : list rnode) : list rnode := match coalesce_attention chain_scalar ns with Done l => l | _ => [] end.

(** The shape of a value. *)
Lemma shape_value {A} (o : option (option (tensor A))) v s :
  o = Some (Some v) -> option_map (option_map tshape) o = Some (Some s) -> tshape v = s.
Proof. intros -> H. cbn in H. congruence. Qed.
Ltac shape_of H := eapply shape_value in H; [|lazy -[exp Rplus Rmult Rdiv Rinv IZR]; reflexivity].
Ltac each_in H := try unfold chain in H; try unfold prechain in H; cbn [In] in H; repeat match type of H with _ \/ _ => destruct H as [H|H] end; try contradiction; try subst.

Ltac read_in H := unfold chain_scalar in H; cbn [aname t4 t2 t0 String.eqb Ascii.eqb Bool.eqb] in H.

Lemma two_exact : is_finite (f64_of_Z 2) = true /\ B2R (f64_of_Z 2) = 2%R.
Proof. split; [reflexivity|]. lazy -[Rplus Rmult Rdiv Rinv IZR]. lra. Qed.

Section Chain.
  Variables (dq dk dv : list R) (m : N -> N -> R).
  Let e0 := chain_given dq dk dv m.
  Let ef := ran e0 chain.
  Lemma chain_runs : run demo_sem chain_static e0 chain = Some ef.
  Proof.
    assert (H : (if run demo_sem chain_static e0 chain then true else false) = true) by (lazy -[exp Rplus Rmult Rdiv Rinv IZR]; reflexivity).
    unfold ef, ran. destruct (run demo_sem chain_static e0 chain); [reflexivity|discriminate].
  Qed.

  Lemma chain_ssa : ssa e0 chain.
  Proof.
    split; [|intros x Hx; cbn in Hx; each_in Hx; reflexivity].
    cbn. repeat constructor; cbn; intros H; each_in H; discriminate.
  Qed.
  Lemma chain_apart : apart chain.
  Proof. intros n i Hn Hi. each_in Hn; cbn [ninputs] in Hi; each_in Hi; cbn; try exact I; intros H; each_in H; discriminate. Qed.

  Lemma chain_graph : attention_graph chain_scalar chain_static chain (coalesced chain) ef.
  Proof.
    split.
    - intros n i t v Hn Hi Ht Hv. each_in Hn; cbn [ninputs] in Hi; each_in Hi; injection Ht as <-; shape_of Hv; rewrite Hv; reflexivity.
    - intros n i j x y b h mm k Hn Ht Hi Hx Hy Hs. each_in Hn; cbn in Ht; try discriminate; cbn in Hi; injection Hi as <- <-;
        shape_of Hx; shape_of Hy; rewrite Hx in Hs; rewrite Hy; injection Hs as <- <- <- <-; eexists; reflexivity.
    - intros add sm n o up mask x v Ha Hat Hs Hst Ho Hr Hin Hn Hnt Hup Hx Hv.
      each_in Ha; cbn in Hat; try discriminate. cbn in Ho. each_in Ho. cbn in Hin.
      destruct Hin as [Hin|Hin]; injection Hin as <- <-.
      + shape_of Hx; shape_of Hv; rewrite Hx, Hv; split; [reflexivity|left; reflexivity].
      + exfalso. each_in Hn; cbn in Hup; each_in Hup; discriminate.
    - intros n i c Hn Hnt Hi Hc. each_in Hn; cbn in Hnt; each_in Hnt; try discriminate; cbn in Hi; each_in Hi; read_in Hc; try discriminate.
      assert (c = f64_of_Z 2) by (injection Hc as <-; reflexivity). subst c. destruct two_exact as [H1 H2]. split; [exact H1|].
      exists []. split; [constructor|]. split; [cbn; lia|]. rewrite H2. reflexivity.
    - intros n a b c Hn Hnt. each_in Hn; discriminate.
    - intros n i c Hn Hnt. each_in Hn; discriminate.
    - intros n mm i j c Hn Hnt Hi Hc _ _ _. each_in Hn; try discriminate. cbn in Hi. injection Hi as <- <-.
      assert (c = f64_of_Z 2) by (read_in Hc; injection Hc as <-; reflexivity). subst c. rewrite (proj2 two_exact). split; [reflexivity|].
      lazy -[Rplus Rmult Rdiv Rinv IZR]. lra.
    - intros qk qm km x y s s' _ _ _ Hqm Hqt. each_in Hqm; discriminate.
    - intros i a n Ha Hat. revert Ha. repeat (destruct i as [|i]; [cbn; intros Ha; injection Ha as <-; first [discriminate Hat | intros _ _ H; discriminate H]|]).
      cbn. intros Ha. destruct i; discriminate.
    - split; [cbn; repeat constructor; cbn; intros H; each_in H; discriminate|]. intros n Hn. each_in Hn; reflexivity.
  Qed.
  Lemma chain_pass : coalesce_attention chain_scalar chain = Done (coalesced chain).
  Proof. reflexivity. Qed.
End Chain.

Lemma four_exact : exact32 (mul64 (f64_of_Z 2) (f64_of_Z 2)) (B2R (f64_of_Z 2) * B2R (f64_of_Z 2))%R.
Proof. rewrite (proj2 two_exact). split; [reflexivity|]. lazy -[Rplus Rmult Rdiv Rinv IZR]. lra. Qed.

Section Prechain.
  Variables (dq dk dv : list R).
  Let e0 := prechain_given dq dk dv.
  Let ef := ran e0 prechain.
  Lemma prechain_runs : run demo_sem chain_static e0 prechain = Some ef.
  Proof.
    assert (H : (if run demo_sem chain_static e0 prechain then true else false) = true) by (lazy -[exp Rplus Rmult Rdiv Rinv IZR]; reflexivity).
    unfold ef, ran. destruct (run demo_sem chain_static e0 prechain); [reflexivity|discriminate].
  Qed.
  Lemma prechain_ssa : ssa e0 prechain.
  Proof.
    split; [|intros x Hx; cbn in Hx; each_in Hx; reflexivity].
    cbn. repeat constructor; cbn; intros H; each_in H; discriminate.
  Qed.
  Lemma prechain_apart : apart prechain.
  Proof. intros n i Hn Hi. each_in Hn; cbn [ninputs] in Hi; each_in Hi; cbn; try exact I; intros H; each_in H; discriminate. Qed.

  Lemma prechain_graph : attention_graph chain_scalar chain_static prechain (coalesced prechain) ef.
  Proof.
    split.
    - intros n i t v Hn Hi Ht Hv. each_in Hn; cbn [ninputs] in Hi; each_in Hi; injection Ht as <-; shape_of Hv; rewrite Hv; reflexivity.
    - intros n i j x y b h mm k Hn Ht Hi Hx Hy Hs. each_in Hn; cbn in Ht; try discriminate; cbn in Hi; injection Hi as <- <-;
        shape_of Hx; shape_of Hy; rewrite Hx in Hs; rewrite Hy; injection Hs as <- <- <- <-; eexists; reflexivity.
    - intros add sm n o up mask x v Ha Hat. each_in Ha; discriminate.
    - intros n i c Hn Hnt Hi Hc. each_in Hn; cbn in Hnt; each_in Hnt; try discriminate; cbn in Hi; each_in Hi; read_in Hc; try discriminate;
      (assert (c = f64_of_Z 2) by (injection Hc as <-; reflexivity)); subst c; destruct two_exact as [H1 H2]; (split; [exact H1|]);
      exists []; (split; [constructor|]); (split; [cbn; lia|]); rewrite H2; reflexivity.
    - intros n a b c Hn Hnt Hi Hb Ha. each_in Hn; cbn in Hnt; try discriminate; cbn in Hi; injection Hi as <- <-; read_in Hb; discriminate.
    - intros n i c Hn Hnt Hi Hc. each_in Hn; cbn in Hnt; try discriminate; cbn in Hi; each_in Hi; read_in Hc; try discriminate;
      (assert (c = f64_of_Z 2) by (injection Hc as <-; reflexivity)); subst c; rewrite (proj2 two_exact); (split; [reflexivity|]);
      lazy -[Rplus Rmult Rdiv Rinv IZR]; lra.
    - intros n mm i j c Hn Hnt. each_in Hn; discriminate.
    - intros qk qm km x y s s' Hqk Hqkt Hi Hqm Hqmt Hx Hs Hkm Hkmt Hy Hs' Hss Hr.
      each_in Hqk; cbn in Hqkt; try discriminate; cbn in Hi; injection Hi as <- <-;
      each_in Hqm; cbn in Hqmt; try discriminate; cbn in Hx; each_in Hx; try discriminate; cbn in Hs; each_in Hs; cbn in Hr; try lia;
      each_in Hkm; cbn in Hkmt; try discriminate; cbn in Hy; each_in Hy; try discriminate; cbn in Hs'; each_in Hs'; try discriminate Hss.
      split; [exists (f64_of_Z 2); split; [reflexivity|exact four_exact]|]. split; [reflexivity|].
      intros n o Hn Hnt Ho (a & Ha & E & _). cbn in Ho; each_in Ho. each_in Hn; cbn in Hnt; each_in Hnt; try discriminate; cbn in Ha; each_in Ha; discriminate.
    - intros i a n Ha Hat. revert Ha. repeat (destruct i as [|i]; [cbn; intros Ha; injection Ha as <-; first [discriminate Hat | intros _ _ H; discriminate H]|]).
      cbn. intros Ha. destruct i; discriminate.
    - split; [cbn; repeat constructor; cbn; intros H; each_in H; discriminate|]. intros n Hn. each_in Hn; reflexivity.
  Qed.
  Lemma prechain_pass : coalesce_attention chain_scalar prechain = Done (coalesced prechain).
  Proof. reflexivity. Qed.
End Prechain.
