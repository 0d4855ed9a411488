(** The nodes: MatMul, MatMulInteger and Gemm. *)
From Verif Require Import Attention_Proofs BinOps_Proofs TensorRun_Proofs Tensor_Proofs Import_Model Linear_Spec.
From Verif Require Export MatMul_Proofs.
From Coq Require Import Lia ZifyBool ZifyNat ZifyN.
Import MatMul_Spec Tensor_Spec.
Local Open Scope N_scope.

Section MatMul.
  Context {T : Type} (dot : list T -> list T -> option T) (add sub mul : T -> T -> T) (of_f32 : N -> T).
  Let run := mrun dot add sub mul of_f32.

  Lemma matmul_ok n e a b o x y z ty :
    ninputs n = [a; b] -> noutputs n = [o] -> covered_matmul n x y -> mholds e a x -> mholds e b y ->
    infer_matmul n = IOk ty -> aty o = ty -> onnx_matmul dot x y = Some z ->
    exists c v, gen_matmul n = Some c /\ run e c = Some v /\ result_ok ty v z.
  Proof.
    intros Ei Eo (a' & b' & ta & tb & Ei' & Ta & Tb & Fl & Hn) [Wx Hx] [Wy Hy] Hi Eoty H.
    rewrite Ei in Ei'. injection Ei' as <- <-. rewrite Ta in Hx. rewrite Tb in Hy. destruct Hx as (Vx & Rx & Lx), Hy as (Vy & Ry & Ly).
    unfold infer_matmul in Hi. rewrite Ei, Ta, Tb in Hi. destruct (nattrs n); [|discriminate].
    destruct (negb _); [discriminate|]. destruct (_ || _)%bool; [discriminate|]. cbv zeta in Hi. injection Hi as <-.
    pose proof (onnx_matmul_rank dot x y z H Lx Ly Hn) as Lz.
    unfold gen_matmul. rewrite Ei, Eo, Ta, Tb, Eoty, Fl. cbn [tt_rank]. eexists. exists (VTensor z). split; [reflexivity|].
    assert (Er : (if (2 <=? tt_rank ta) && (tt_rank tb =? 1) || (tt_rank ta =? 1) && (2 <=? tt_rank tb) then N.max (tt_rank ta) (tt_rank tb) - 1 else N.max (tt_rank ta) (tt_rank tb)) = N.of_nat (length (tshape z))).
    { rewrite Rx, Ry, Lz. clear -Lx Ly Hn. destruct (Nat.eqb_spec (length (tshape x)) 1); destruct (Nat.eqb_spec (length (tshape y)) 1); cbn [orb]; destruct (_ || _)%bool eqn:E; lia. }
    rewrite Er. split.
    - rewrite Rx, Ry. apply (product_code_ok dot add sub mul of_f32) with (x := x) (y := y); auto.
    - unfold result_ok. eexists. split; [reflexivity|]. split; [reflexivity|]. reflexivity.
  Qed.
End MatMul.

(** ** Zero points *)
Section Integer.
  Let run := mrun sum32 Z.add Z.sub Z.mul Z.of_N.

  Lemma bshape_scalar_r s : bshape s [] = Some s.
  Proof. unfold bshape. rewrite <- (rev_involutive s) at 2. destruct (rev s); reflexivity. Qed.
  Lemma tab_eq {A} s f (t : tensor A) : twf t -> tshape t = s -> (forall idx, valid_idx s idx -> f idx = get t idx) -> tab s f = Some t.
  Proof. intros W <- H. rewrite <- (tab_get t W). apply tab_ext. exact H. Qed.
  Lemma shifted_none which x : twf x -> shifted None which x = Some x.
  Proof.
    intros W. unfold shifted. cbn [enough]. apply tab_eq; auto. intros idx Hi. destruct (get_valid x idx W Hi) as (v & -> & _). cbn. f_equal. lia.
  Qed.
  (** One zero point. *)
  Lemma sub_scalar which (x z : tensor Z) : tshape z = [] ->
    broadcast2 (fun a b => Some (a - b)%Z) x z = shifted (Some z) which x.
  Proof.
    intros Sz. unfold broadcast2, shifted. cbn [enough]. rewrite Sz, bshape_scalar_r. apply tab_ext. intros idx Hi.
    rewrite bproj_self by exact Hi. unfold bproj. cbn [combine map length]. cbn [zero_point]. unfold get. rewrite Sz. cbn [offset N.to_nat]. destruct (nth_error (tdata x) _); [|reflexivity].
    destruct (nth_error (tdata z) 0); reflexivity.
  Qed.
  Lemma last_valid s idx : valid_idx s idx -> s <> [] -> last idx 0 < last s 0.
  Proof.
    induction 1 as [|i d idx s H F IH] using Forall2_ind; [contradiction|]. intros _.
    destruct F as [|j d' idx s H' F]; [exact H|]. apply IH. discriminate.
  Qed.
  (** One for each column. *)
  Lemma sub_columns (x z t : tensor Z) c : tshape z = [c] -> twf z -> (2 <= length (tshape x))%nat -> shifted (Some z) column_of x = Some t ->
    broadcast2 (fun a b => Some (a - b)%Z) x z = Some t.
  Proof.
    intros Sz W L. unfold shifted. cbn [enough]. rewrite Sz. destruct (N.eqb_spec c (column_of (tshape x))) as [E|]; [|discriminate].
    intros <-. unfold broadcast2. rewrite Sz. destruct (rev_two (tshape x) L) as (b & m & n & Es & Rs).
    assert (En : n = c). { rewrite E. unfold column_of. rewrite Es. change [m; n] with ([m] ++ [n]). rewrite app_assoc, last_last. reflexivity. }
    assert (Eb : bshape (tshape x) [c] = Some (tshape x)).
    { unfold bshape. rewrite Rs. cbn [rev app brev]. subst n. unfold bdim. rewrite N.eqb_refl. cbn. rewrite rev_involutive, Es, <- app_assoc. reflexivity. }
    rewrite Eb. apply tab_ext. intros idx Hi. assert (Li : length idx = length (tshape x)) by (apply (Forall2_length Hi)).
    assert (Q : bproj [c] idx = [last idx 0]).
    { unfold bproj. cbn [length]. assert (Hl : skipn (length idx - 1) idx = [last idx 0]).
      { destruct (rev idx) as [|k r] eqn:Er; [apply (f_equal (@length N)) in Er; rewrite rev_length in Er; cbn in Er; lia|].
        apply (f_equal (@rev N)) in Er. rewrite rev_involutive in Er. cbn in Er. rewrite Er, last_last, app_length. cbn [length].
        rewrite Nat.add_sub, skipn_app, skipn_all, Nat.sub_diag. reflexivity. }
      rewrite Hl. cbn. destruct (N.eqb_spec c 1) as [E1|]; [|reflexivity].
      assert (Hlt : last idx 0 < last (tshape x) 0) by (apply last_valid; [exact Hi|intros C; rewrite C in L; cbn in L; lia]).
      unfold column_of in E. f_equal. lia. }
    rewrite Q, bproj_self by exact Hi. cbn [zero_point]. rewrite Sz. unfold column_of. unfold get at 2. rewrite Sz. unfold get.
    replace (offset [c] [last idx 0]) with (last idx 0) by (cbn; lia).
    destruct (nth_error (tdata x) _); [|reflexivity]. destruct (nth_error (tdata z) _); reflexivity.
  Qed.
  Lemma b_zip_lead (x z : tensor Z) r k : r = length (tshape x) -> (k + length (tshape z) = r)%nat ->
    b_zip Z.sub x (unsqueeze k z) = broadcast2 (fun a b => Some (a - b)%Z) x z.
  Proof.
    intros -> H. unfold b_zip. cbn [unsqueeze tshape]. rewrite app_length, repeat_length. replace (_ =? _)%nat with true by lia.
    apply broadcast2_unsqueeze_r. lia.
  Qed.
  Lemma unsqueeze_more {A} j k (z : tensor A) : unsqueeze j (mkT (repeat 1 k ++ tshape z) (tdata z)) = unsqueeze (j + k) z.
  Proof. unfold unsqueeze. cbn. rewrite repeat_app, app_assoc. reflexivity. Qed.
  (** The operand with its zero point subtracted, as emitted. *)
  Lemma centered_none e a x t : mholds e a x -> aty a = TensorT t -> exists c, centered a (N.of_nat (length (tshape x))) None = Some c /\ run e c = Some (VTensor x).
  Proof. intros [_ H] Ea. rewrite Ea in H. destruct H as (V & _). eexists. split; [reflexivity|]. unfold run. cbn [mrun]. rewrite V. reflexivity. Qed.
  Lemma centered_some e a t x zp z which x' : mholds e a x -> aty a = TensorT t -> mholds e zp z -> on_device zp -> aname zp <> ""%string ->
    tshape z = [] \/ (which = column_of /\ (2 <= length (tshape x))%nat /\ length (tshape z) = 1%nat) -> shifted (Some z) which x = Some x' ->
    exists c, centered a (N.of_nat (length (tshape x))) (Some zp) = Some c /\ run e c = Some (VTensor x').
  Proof.
    intros [_ H] Ea [Wz Hz] Dz Nz Sz Hs. rewrite Ea in H. destruct H as (V & _ & L). unfold centered.
    destruct (String.eqb_spec (aname zp) ""); [contradiction|]. eexists. split; [reflexivity|].
    assert (B : broadcast2 (fun a b => Some (a - b)%Z) x z = Some x').
    { destruct Sz as [Sz|(-> & L2 & Sz)]; [rewrite (sub_scalar which) by exact Sz; exact Hs|].
      destruct (tshape z) as [|c [|? ?]] eqn:Es; try discriminate. exact (sub_columns x z x' c Es Wz L2 Hs). }
    unfold run. cbn [mrun]. rewrite V. cbn [option_map]. unfold on_device in Dz.
    assert (P : exists k, (k + length (tshape z) <= length (tshape x))%nat /\ (k + length (tshape z) = 1)%nat /\ e (aname zp) = Some (VTensor (unsqueeze k z))).
    { destruct (aty zp) as [d|d|k|tz] eqn:Et; try contradiction.
      - destruct Hz as (S0 & Ez). exists 1%nat. rewrite S0. cbn. repeat split; [lia|]. rewrite Ez. unfold unsqueeze. rewrite S0. reflexivity.
      - destruct Hz as (Ez & _ & Lz). destruct Sz as [S0|(_ & L2 & S1)]; [rewrite S0 in Lz; cbn in Lz; lia|].
        exists 0%nat. rewrite S1. repeat split; [lia|]. rewrite Ez. unfold unsqueeze. destruct z; reflexivity. }
    destruct P as (k & Hk & Hk1 & Ez).
    assert (Q : mrun sum32 Z.add Z.sub Z.mul Z.of_N e (if 1 <? N.of_nat (length (tshape x)) then MLead (N.of_nat (length (tshape x))) (MCast (MVar (aname zp))) else MCast (MVar (aname zp))) =
                Some (VTensor (unsqueeze (length (tshape x) - length (tshape z)) z))).
    { destruct (N.ltb_spec 1 (N.of_nat (length (tshape x)))); cbn [mrun]; rewrite Ez; cbn [option_map].
      - unfold b_lead. cbn [unsqueeze tshape]. rewrite app_length, repeat_length. replace (_ <=? _)%nat with true by lia. cbn [option_map].
        f_equal. f_equal. unfold unsqueeze at 2. rewrite unsqueeze_more. f_equal. lia.
      - f_equal. f_equal. f_equal. lia. }
    rewrite Q. rewrite (b_zip_lead x z _ _ eq_refl) by lia. rewrite B. reflexivity.
  Qed.
  Lemma shifted_facts z which (x x' : tensor Z) : shifted z which x = Some x' -> tshape x' = tshape x.
  Proof. unfold shifted. destruct (enough _ _); [|discriminate]. intros H. apply (tab_wf _ _ _ H). Qed.

  Lemma integer_ok n e a b zs o x y za zb z ta tb ty :
    ninputs n = a :: b :: zs -> noutputs n = [o] -> aty a = TensorT ta -> aty b = TensorT tb ->
    ~ (length (tshape x) = 1%nat /\ length (tshape y) = 1%nat) -> mholds e a x -> mholds e b y ->
    zero_points e zs za zb (length (tshape y)) -> infer_matmul_integer n = IOk ty -> aty o = ty ->
    onnx_matmul_integer x y za zb = Some z ->
    exists c v, gen_matmul_integer n = Some c /\ run e c = Some v /\ result_ok ty v z.
  Proof.
    intros Ei Eo Ta Tb Hn Hx Hy Hz Hi Eoty H. unfold onnx_matmul_integer in H.
    destruct (shifted za row_of x) as [x'|] eqn:Ex; [|discriminate]. destruct (shifted zb column_of y) as [y'|] eqn:Ey; [|discriminate].
    pose proof (shifted_facts _ _ _ _ Ex) as Sx. pose proof (shifted_facts _ _ _ _ Ey) as Sy.
    assert (Fx := proj2 Hx). rewrite Ta in Fx. destruct Fx as (_ & Rx & Lx). assert (Fy := proj2 Hy). rewrite Tb in Fy. destruct Fy as (_ & Ry & Ly).
    assert (Cx : exists c, centered a (N.of_nat (length (tshape x))) (nth_error zs 0) = Some c /\ run e c = Some (VTensor x')).
    { inversion Hz; subst; cbn [nth_error].
      - rewrite shifted_none in Ex by apply Hx. injection Ex as <-. exact (centered_none e a x ta Hx Ta).
      - eapply centered_some; eauto.
      - eapply centered_some; eauto. }
    assert (Cy : exists c, centered b (N.of_nat (length (tshape y))) (nth_error zs 1) = Some c /\ run e c = Some (VTensor y')).
    { inversion Hz; subst; cbn [nth_error].
      - rewrite shifted_none in Ey by apply Hy. injection Ey as <-. exact (centered_none e b y tb Hy Tb).
      - rewrite shifted_none in Ey by apply Hy. injection Ey as <-. exact (centered_none e b y tb Hy Tb).
      - eapply centered_some; eauto. tauto. }
    destruct Cx as (cx & Gx & Vx), Cy as (cy & Gy & Vy).
    unfold infer_matmul_integer in Hi. rewrite Ei, Eo, Ta, Tb in Hi. cbv zeta in Hi. injection Hi as <-.
    pose proof (onnx_matmul_rank sum32 x' y' z H ltac:(rewrite Sx; exact Lx) ltac:(rewrite Sy; exact Ly) ltac:(rewrite Sx, Sy; exact Hn)) as Lz. rewrite Sx, Sy in Lz.
    unfold gen_matmul_integer. rewrite Ei, Eo, Ta, Tb, Rx, Ry, Gx, Gy. cbn [obind]. eexists. exists (VTensor z). split; [reflexivity|]. split.
    - rewrite <- Sx, <- Sy. apply (product_code_ok sum32 Z.add Z.sub Z.mul Z.of_N) with (x := x') (y := y'); auto; rewrite ?Sx, ?Sy; auto; intros O; rewrite Lz, O; cbn [Nat.eqb]; rewrite ?orb_true_r; cbn [orb]; lia.
    - unfold result_ok. eexists. split; [reflexivity|]. split; [reflexivity|]. cbn [tt_rank]. rewrite Lz. clear -Lx Ly Hn.
      destruct (Nat.eqb_spec (length (tshape x)) 1); destruct (Nat.eqb_spec (length (tshape y)) 1); cbn [orb]; destruct (_ || _)%bool eqn:E; lia.
  Qed.
End Integer.

(** ** Gemm *)
Section Gemm.
  Context {T : Type} (dot : list T -> list T -> T) (add sub mul : T -> T -> T) (of_f32 : N -> T).
  Hypothesis mul_comm : forall u v, mul u v = mul v u.
  Hypothesis mul_one : forall v, mul (of_f32 f32_one) v = v.
  Let run := mrun (fun u v => Some (dot u v)) add sub mul of_f32.

  Lemma valid2 m n idx : valid_idx [m; n] idx -> exists i j, idx = [i; j] /\ i < m /\ j < n.
  Proof. intros H. inversion H as [|i d l l' Hi F]; subst. inversion F as [|j d l'' l0 Hj F']; subst. inversion F'; subst. eauto. Qed.
  Lemma valid2_of m n i j : i < m -> j < n -> valid_idx [m; n] [i; j].
  Proof. intros. repeat constructor; assumption. Qed.
  (** An operand, transposed or not. *)
  Lemma side_ok e x a0 a1 (A : tensor T) (tr : Z) : e x = Some (VTensor A) -> twf A -> tshape A = [a0; a1] ->
    let t := negb (Z.eqb tr 0) in
    exists A', run e (if Z.eqb tr 0 then MVar x else MTranspose (MVar x)) = Some (VTensor A') /\ twf A' /\
      tshape A' = [if t then a1 else a0; if t then a0 else a1] /\
      forall i j, i < (if t then a1 else a0) -> j < (if t then a0 else a1) -> get A' [i; j] = entry A t i j.
  Proof.
    intros E W S t. unfold t. destruct (Z.eqb tr 0); cbn [negb].
    - exists A. repeat split; auto.
    - unfold run. cbn [mrun]. rewrite E. unfold b_transpose. rewrite S. cbn [rev app].
      destruct (tab_Some [a1; a0] (fun idx => get A ([] ++ [nth 1 idx 0; nth 0 idx 0]))) as [A' HA].
      { intros idx Hi. destruct (valid2 _ _ _ Hi) as (i & j & -> & Hi' & Hj). cbn [app nth].
        destruct (get_valid A [j; i] W) as (v & -> & _); [rewrite S; apply valid2_of; assumption|]. eauto. }
      exists A'. cbn [length] in *. split; [|split; [|split]].
      + change (option_map VTensor (tab [a1; a0] (fun idx => get A ([] ++ [nth 1 idx 0; nth 0 idx 0]))) = Some (VTensor A')). rewrite HA. reflexivity.
      + apply (tab_wf _ _ _ HA).
      + apply (tab_wf _ _ _ HA).
      + intros i j Hi Hj. rewrite (get_tab _ _ _ _ HA) by (apply valid2_of; assumption). reflexivity.
  Qed.
  Lemma get_map f (x : tensor T) idx : get (b_map f x) idx = option_map f (get x idx).
  Proof. unfold get, b_map. cbn. apply nth_error_map. Qed.
  Lemma twf_map f (x : tensor T) : twf x -> twf (b_map f x).
  Proof. unfold twf, b_map. cbn. rewrite map_length. auto. Qed.

  Lemma sget_In (m : list (string * attr)) k v : sget m k = Some v -> In (k, v) m.
  Proof.
    induction m as [|[k' v'] m IH]; cbn; [discriminate|]. destruct (String.eqb_spec k' k) as [->|]; intros E; [|auto].
    left. congruence.
  Qed.
  Lemma config_ok n : gemm_attrs n -> exists g, gemm_config_of n = Some g /\
    g_alpha g = float_attr (nattrs n) "alpha" /\ g_beta g = float_attr (nattrs n) "beta" /\
    negb (Z.eqb (g_ta g) 0) = flag_attr (nattrs n) "transA" /\ negb (Z.eqb (g_tb g) 0) = flag_attr (nattrs n) "transB".
  Proof.
    intros H. unfold gemm_attrs in H. rewrite Forall_forall in H. unfold gemm_config_of.
    replace (forallb _ _) with true.
    2:{ symmetry. apply forallb_forall. intros kv Hkv. specialize (H kv Hkv). unfold gemm_known. destruct (snd kv); try contradiction; cbn [In] in H.
        all: destruct H as [<-|[<-|[]]]; reflexivity. }
    assert (Fl : forall k, In k ["alpha"; "beta"]%string -> (match get_attr n k with None => Some f32_one | Some (AFloat b) => Some b | _ => None end) = Some (float_attr (nattrs n) k)).
    { intros k Hk. unfold get_attr, float_attr. destruct (sget (nattrs n) k) as [v|] eqn:E; [|reflexivity].
      apply sget_In in E. specialize (H _ E). cbn [fst snd] in H. destruct v; try contradiction; [reflexivity|]. exfalso. cbn in H, Hk. destruct Hk as [<-|[<-|[]]], H as [H|[H|[]]]; discriminate H. }
    assert (In_ : forall k, In k ["transA"; "transB"]%string -> exists z, (match get_attr n k with None => Some 0%Z | Some (AInt z) => Some z | _ => None end) = Some z /\ negb (Z.eqb z 0) = flag_attr (nattrs n) k).
    { intros k Hk. unfold get_attr, flag_attr. destruct (sget (nattrs n) k) as [v|] eqn:E; [|exists 0%Z; auto].
      apply sget_In in E. specialize (H _ E). cbn [fst snd] in H. destruct v; try contradiction; [|eauto]. exfalso. cbn in H, Hk. destruct Hk as [<-|[<-|[]]], H as [H|[H|[]]]; discriminate H. }
    rewrite (Fl "alpha"%string), (Fl "beta"%string) by (cbn; auto). cbn [obind].
    destruct (In_ "transA"%string) as (ta & -> & Fa); [cbn; auto|]. destruct (In_ "transB"%string) as (tb & -> & Fb); [cbn; auto|].
    cbn [obind]. eexists. split; [reflexivity|]. cbn. auto.
  Qed.

  Lemma mapo_some {A B} (f : A -> option B) l : (forall a, In a l -> exists b, f a = Some b) -> exists r, mapo f l = Some r.
  Proof.
    induction l as [|a l IH]; intros H; [exists []; reflexivity|]. destruct (H a (or_introl eq_refl)) as [b Eb]. destruct IH as [r Er]; [intros; apply H; right; assumption|].
    exists (b :: r). cbn. rewrite Eb, Er. reflexivity.
  Qed.
  (** The product and its multiple. *)
  Lemma product2 (A B : tensor T) m k n : twf A -> twf B -> tshape A = [m; k] -> tshape B = [k; n] ->
    exists P, b_matmul (fun u v => Some (dot u v)) A B = Some P /\ twf P /\ tshape P = [m; n] /\
      forall i j, i < m -> j < n -> exists row column,
        mapo (fun l => get A [i; l]) (upto k) = Some row /\ mapo (fun l => get B [l; j]) (upto k) = Some column /\ get P [i; j] = Some (dot row column).
  Proof.
    intros WA WB SA SB. unfold b_matmul. rewrite SA, SB. cbn [length Nat.eqb Nat.leb andb]. unfold matrix_product. rewrite SA, SB. cbn [rev app].
    change (bshape [] []) with (Some (@nil N)). rewrite N.eqb_refl. cbn [app length firstn].
    assert (Rw : forall i, i < m -> exists row, mapo (fun l => get A [i; l]) (upto k) = Some row).
    { intros i Hi. apply mapo_some. intros l Hl. apply upto_In in Hl. destruct (get_valid A [i; l] WA) as (v & -> & _); [rewrite SA; apply valid2_of; assumption|]. eauto. }
    assert (Cl : forall j, j < n -> exists column, mapo (fun l => get B [l; j]) (upto k) = Some column).
    { intros j Hj. apply mapo_some. intros l Hl. apply upto_In in Hl. destruct (get_valid B [l; j] WB) as (v & -> & _); [rewrite SB; apply valid2_of; assumption|]. eauto. }
    set (f := fun idx : list N => _). destruct (tab_Some [m; n] f) as [P HP].
    { intros idx Hv. destruct (valid2 _ _ _ Hv) as (i & j & -> & Hi & Hj). unfold f. cbn [nth firstn]. destruct (Rw i Hi) as [row Er], (Cl j Hj) as [column Ec].
      change (bproj [] []) with (@nil N). cbn [app]. rewrite Er, Ec. eauto. }
    exists P. split; [exact HP|]. split; [apply (tab_wf _ _ _ HP)|]. split; [apply (tab_wf _ _ _ HP)|].
    intros i j Hi Hj. destruct (Rw i Hi) as [row Er], (Cl j Hj) as [column Ec]. exists row, column. split; [exact Er|]. split; [exact Ec|].
    rewrite (get_tab _ _ _ _ HP) by (apply valid2_of; assumption). unfold f. cbn [nth firstn]. change (bproj [] []) with (@nil N). cbn [app]. rewrite Er, Ec. reflexivity.
  Qed.
  Lemma scale_ok e c P al : run e c = Some (VTensor P) -> twf P ->
    exists Q, run e (if al =? f32_one then c else MScale c al) = Some (VTensor Q) /\ twf Q /\ tshape Q = tshape P /\
      forall idx, get Q idx = option_map (mul (of_f32 al)) (get P idx).
  Proof.
    intros E W. destruct (N.eqb_spec al f32_one) as [->|].
    - exists P. repeat split; auto. intros idx. destruct (get P idx); cbn; [rewrite mul_one|]; reflexivity.
    - exists (b_map (fun v => mul v (of_f32 al)) P). unfold run in *. cbn [mrun]. rewrite E. repeat split; auto using twf_map.
      intros idx. rewrite get_map. destruct (get P idx); cbn; [rewrite mul_comm|]; reflexivity.
  Qed.

  Lemma gemm_ok n e a b cs o A B C ta tb z ty :
    ninputs n = a :: b :: cs -> noutputs n = [o] -> aty a = TensorT ta -> aty b = TensorT tb -> gemm_attrs n ->
    mholds e a A -> mholds e b B ->
    third_input e cs C ->
    infer_gemm n = IOk ty -> gemm_of add mul dot of_f32 (nattrs n) A B C = Some z ->
    exists c v, gen_gemm n = Some c /\ run e c = Some v /\ result_ok ty v z.
  Proof.
    intros Ei Eo Ta Tb Ha [WA HA] [WB HB] HC Hi H. rewrite Ta in HA. rewrite Tb in HB. destruct HA as (VA & RA & _), HB as (VB & RB & _).
    unfold gen_gemm. rewrite Ei. destruct (config_ok n Ha) as (g & -> & Eal & Ebe & Fa & Fb).
    unfold gemm_of, onnx_gemm in H. rewrite <- Fa, <- Fb in H. rewrite <- Eal, <- Ebe in H.
    destruct (tshape A) as [|a0 [|a1 [|? ?]]] eqn:SA; try discriminate H. destruct (tshape B) as [|b0 [|b1 [|? ?]]] eqn:SB; try discriminate H.
    destruct (side_ok e (aname a) a0 a1 A (g_ta g) VA WA SA) as (A' & EA & WA' & SA' & GA).
    destruct (side_ok e (aname b) b0 b1 B (g_tb g) VB WB SB) as (B' & EB & WB' & SB' & GB).
    cbv zeta in *. set (ta' := negb (Z.eqb (g_ta g) 0)) in *. set (tb' := negb (Z.eqb (g_tb g) 0)) in *.
    set (m := if ta' then a1 else a0) in *. set (k := if ta' then a0 else a1) in *.
    set (nn := if tb' then b0 else b1). fold nn in H.
    destruct (N.eqb_spec k (if tb' then b1 else b0)) as [Ek|]; [|discriminate H].
    replace [if tb' then b1 else b0; if tb' then b0 else b1] with [k; nn] in SB' by (rewrite Ek; reflexivity). rewrite <- Ek in GB.
    destruct (product2 A' B' m k nn WA' WB' SA' SB') as (P & EP & WP & SP & GP).
    assert (RP : run e (MProduct (if Z.eqb (g_ta g) 0 then MVar (aname a) else MTranspose (MVar (aname a)))
                                 (if Z.eqb (g_tb g) 0 then MVar (aname b) else MTranspose (MVar (aname b)))) = Some (VTensor P)).
    { unfold run in *. cbn [mrun]. rewrite EA, EB, EP. reflexivity. }
    destruct (scale_ok e _ P (g_alpha g) RP WP) as (Q & EQ & WQ & SQ & GQ). rewrite SP in SQ.
    assert (GQ' : forall i j, i < m -> j < nn -> get Q [i; j] = option_map (mul (of_f32 (g_alpha g)))
        (lift2 dot (mapo (fun l => entry A ta' i l) (upto k)) (mapo (fun l => entry B tb' l j) (upto k)))).
    { intros i j Hi' Hj. rewrite GQ. destruct (GP i j Hi' Hj) as (row & column & Er & Ec & ->).
      replace (mapo (fun l => entry A ta' i l) (upto k)) with (Some row).
      2:{ rewrite <- Er. apply mapo_ext. intros l Hl. apply upto_In in Hl. apply GA; assumption. }
      replace (mapo (fun l => entry B tb' l j) (upto k)) with (Some column).
      2:{ rewrite <- Ec. apply mapo_ext. intros l Hl. apply upto_In in Hl. apply GB; assumption. }
      reflexivity. }
    assert (Rz : forall z : tensor T, tshape z = [m; nn] -> result_ok ty (VTensor z) z).
    { intros z0 Sz. unfold infer_gemm in Hi. rewrite Ei, Ta, Tb, RA, RB in Hi. cbv zeta in Hi. injection Hi as <-. eexists. split; [reflexivity|]. split; [reflexivity|].
      rewrite Sz. reflexivity. }
    assert (Sz : tshape z = [m; nn]).
    { destruct C as [c|]; [destruct (bshape [m; nn] (tshape c)) as [[|m' [|n' [|? ?]]]|]; try discriminate H; destruct (_ && _)%bool; [|discriminate H]|]; apply (tab_wf _ _ _ H). }
    unfold third_input in HC. destruct cs as [|c [|? ?]], C as [t|]; try contradiction.
    - exists (if g_alpha g =? f32_one then MProduct (if Z.eqb (g_ta g) 0 then MVar (aname a) else MTranspose (MVar (aname a))) (if Z.eqb (g_tb g) 0 then MVar (aname b) else MTranspose (MVar (aname b)))
              else MScale (MProduct (if Z.eqb (g_ta g) 0 then MVar (aname a) else MTranspose (MVar (aname a))) (if Z.eqb (g_tb g) 0 then MVar (aname b) else MTranspose (MVar (aname b)))) (g_alpha g)), (VTensor Q). split; [reflexivity|]. split; [exact EQ|].
      rewrite (tab_eq [m; nn] _ Q) in H; [injection H as <-; auto|exact WQ|exact SQ|].
      intros idx Hv. destruct (valid2 _ _ _ Hv) as (i & j & -> & Hi' & Hj). cbn [nth]. symmetry. apply GQ'; assumption.
    - destruct HC as (Hc & Nc & Tc). destruct (String.eqb_spec (aname c) ""); [contradiction|].
      destruct (bshape [m; nn] (tshape t)) as [[|m' [|n' [|? ?]]]|] eqn:Eb; try discriminate H.
      destruct (N.eqb_spec m' m) as [->|]; [|discriminate H]. destruct (N.eqb_spec n' nn) as [->|]; [|discriminate H]. cbn [andb] in H.
      destruct Hc as [Wt Ht]. destruct (aty c) as [d|d|kk|tc] eqn:Ec; try contradiction; cbn [obind].
      + destruct Ht as (St & v & Dt & Ev). eexists. exists (VTensor z). split; [reflexivity|]. split; [|auto].
        assert (R2 : run e (if g_beta g =? f32_one then MVar (aname c) else MScale (MVar (aname c)) (g_beta g)) = Some (VNative (mul (of_f32 (g_beta g)) v))).
        { unfold run. destruct (N.eqb_spec (g_beta g) f32_one) as [->|]; cbn [mrun]; rewrite Ev; [rewrite mul_one|rewrite mul_comm]; reflexivity. }
        unfold run in *. cbn [mrun]. rewrite EQ, R2. f_equal. f_equal. rewrite (tab_eq [m; nn] _ (b_map (fun u => add u (mul (of_f32 (g_beta g)) v)) Q)) in H; [congruence|apply twf_map; exact WQ|exact SQ|].
        intros idx Hv. destruct (valid2 _ _ _ Hv) as (i & j & -> & Hi' & Hj). cbn [nth]. rewrite get_map, GQ' by assumption.
        rewrite St. change (bproj [] [i; j]) with (@nil N). unfold get at 1. rewrite St, Dt. cbn. destruct (lift2 dot _ _); reflexivity.
      + destruct Ht as (Ev & Rt & Lt). eexists. exists (VTensor z). split; [reflexivity|]. split; [|auto].
        pose proof (bshape_len _ _ _ Eb) as Lb. cbn [length] in Lb.
        assert (R1 : run e (MLead 2 (MVar (aname c))) = Some (VTensor (unsqueeze (2 - length (tshape t)) t))).
        { unfold run. cbn [mrun]. rewrite Ev. unfold b_lead. change (N.to_nat 2) with 2%nat. replace (_ <=? 2)%nat with true by lia. reflexivity. }
        destruct (scale_ok e _ _ (g_beta g) R1 (twf_unsqueeze _ _ Wt)) as (D & ED & WD & SD & GD).
        unfold run in *. cbn [mrun]. rewrite EQ. cbn [mrun] in ED. rewrite ED.
        assert (Ez : b_zip add Q D = Some z); [|rewrite Ez; reflexivity]. unfold b_zip. rewrite SQ, SD. cbn [unsqueeze tshape]. rewrite app_length, repeat_length. cbn [length].
        replace (2 =? _)%nat with true by lia. rewrite <- H. unfold broadcast2. rewrite SQ, SD. cbn [unsqueeze tshape].
        rewrite bshape_comm, bshape_unsqueeze by (cbn [length]; lia). rewrite bshape_comm, Eb. apply tab_ext. intros idx Hv.
        rewrite bproj_self by exact Hv. rewrite bproj_unsqueeze by (rewrite (Forall2_length Hv); cbn [length]; lia).
        rewrite GD, get_unsqueeze. destruct (valid2 _ _ _ Hv) as (i & j & -> & Hi' & Hj). cbn [nth]. rewrite GQ' by assumption.
        destruct (lift2 dot _ _); cbn; [|reflexivity]. destruct (get t _); reflexivity.
  Qed.
End Gemm.
