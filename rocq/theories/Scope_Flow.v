(** The function generated for a graph with If, Loop and Scan nodes. *)
From Verif Require Import IR_Model Scope_Spec Scope_Model Scope_Cond Scope_Proofs Scope_If Scope_Loop Scope_Scan.
From Coq Require Import Lia ZifyBool ZifyNat.

(** * Every node *)
Lemma legal_step : forall n, legal_node n -> covered n -> NoDup (node_locals n) -> step n.
Proof.
  apply (cnode_rect_ (fun n => legal_node n -> covered n -> NoDup (node_locals n) -> step n)).
  - intros ins outs acc _ C _. apply plain_step. exact C.
  - intros cond outer outs refs thn els Ht He Hl C Hn. destruct (legal_if _ _ _ _ _ _ Hl) as (Hlen & (Lt & Nt) & Le & Ne).
    rewrite node_locals_if in Hn.
    assert (SUB : forall b, (forall n, In n (gnodes b) -> legal_node n -> covered n -> NoDup (node_locals n) -> step n) ->
              legal_branch refs outer b -> (forall n, In n (gnodes b) -> legal_node n) -> forall n, In n (gnodes b) -> step n).
    { intros b Hs (_ & (L & _) & _) Hb n Hin. apply Hs; auto.
      - exact (whole_covered _ L n Hin).
      - exact (node_names _ L n Hin). }
    apply if_step; [exact Hlen|exact Lt|exact Le|exact C|exact Hn|exact (SUB thn Ht Lt Nt)|exact (SUB els He Le Ne)].
  - intros count cond init outer outs refs body Hb Hl C Hn. destruct (legal_loop_ _ _ _ _ _ _ _ Hl) as [LL LB]. rewrite node_locals_loop in Hn.
    destruct (ll_body _ _ _ _ _ _ LL) as [LV _].
    apply loop_step; [exact LL|exact C|exact Hn|]. intros n Hin. exact (Hb n Hin (LB n Hin) (whole_covered _ LV n Hin) (node_names _ LV n Hin)).
  - intros init seqs outer outs refs body Hb Hl C Hn. destruct (legal_scan_ _ _ _ _ _ _ Hl) as [LS LB]. rewrite node_locals_scan in Hn.
    destruct (ls_body _ _ _ _ _ _ LS) as [LV _].
    apply scan_step; [exact LS|exact C|exact Hn|]. intros n Hin. exact (Hb n Hin (LB n Hin) (whole_covered _ LV n Hin) (node_names _ LV n Hin)).
Qed.

(** * The whole function *)
Section Whole.
  Variable g : cgraph.
  Hypothesis L : legal_level g.
  Hypothesis NODES : forall n, In n (gnodes g) -> legal_node n.
  Let R x := times x (filter is_tensor (gouts g)).
  Lemma build_eq : build_scope g = reg_returned (gouts g) (length (gnodes g)) (reg_nodes (gnodes g) 0 (reg_vars (gins g) 0 [])).
  Proof. reflexivity. Qed.
  Lemma whole_entries x k n : nth_error (gnodes g) k = Some n -> (0 < nreg n x)%nat ->
    exists r p, sget (build_scope g) x = Some (r, p) /\ (p <= 0 + k)%nat /\ (2 <= sreg (gnodes g) x + R x -> sreg (gnodes g) x + R x <= r)%nat.
  Proof.
    intros Hk Hp. destruct (whole_names g L) as (SSA & _ & _). destruct (NoDup_app_parts _ _ SSA) as (N1 & N2 & N3).
    destruct (nreg_pos n x Hp) as (a & Ha & Ra & Ea).
    destruct (nth_error_split _ _ Hk) as (pre & post & Esp & Hl).
    pose proof (whole_order g L pre n post a Esp Ha Ra) as Ho. rewrite Ea in Ho. destruct (named_in _ _ _ Ho) as (c & Hc & Ec).
    assert (Tc : tracked c = true).
    { rewrite <- (registered_tracked a Ra). apply (whole_kind g L n a c pre post Esp); [right; apply filter_In; auto|exact Hc|congruence]. }
    assert (Hkl : (k < length (gnodes g))%nat) by (apply nth_error_Some; congruence).
    assert (OUTS : forall r p, sget (reg_nodes (gnodes g) 0 (reg_vars (gins g) 0 [])) x = Some (r, p) -> (p <= length (gnodes g))%nat ->
              sget (build_scope g) x = Some ((r + R x)%nat, p)).
    { intros r p E Hpp. rewrite build_eq. apply reg_outs_known; assumption. }
    apply in_app_or in Hc. destruct Hc as [Hc|Hc].
    - exists (sreg (gnodes g) x + R x)%nat, 0%nat. split; [|lia]. apply OUTS; [|lia].
      apply (reg_nodes_known (gnodes g) 0 _ x 0%nat 0%nat); [|lia|rewrite <- Ec; apply N3, in_map; exact Hc].
      rewrite <- Ec. apply reg_vars_new; auto.
    - apply in_flat_map in Hc. destruct Hc as (m & Hm & Hc). apply In_nth_error in Hm. destruct Hm as [j Hj].
      assert (Hjk : (j < k)%nat) by (rewrite <- Hl; apply nth_error_Some; congruence).
      assert (Hj' : nth_error (gnodes g) j = Some m) by (rewrite Esp, nth_error_app1 by lia; exact Hj).
      assert (En : sget (reg_vars (gins g) 0 []) (aname c) = None).
      { rewrite reg_vars_other; [reflexivity|]. intros Hi. apply (N3 _ Hi). apply in_flat_map. exists m.
        split; [eapply nth_error_In; exact Hj'|apply in_map; exact Hc]. }
      pose proof (reg_nodes_defined (map aname (gins g)) (gnodes g) SSA (whole_order g L) 0 _ j m c Hj' Hc Tc En) as E. rewrite Ec in E. cbn [Nat.add] in E.
      exists (sreg (gnodes g) x + R x)%nat, (S j). split; [apply OUTS; [exact E|lia]|lia].
  Qed.
  Lemma whole_fresh x : In x (flat_map node_locals (gnodes g)) -> sget (build_scope g) x = None.
  Proof.
    intros Hx. destruct (whole_names g L) as (_ & _ & Hd). specialize (Hd x Hx). rewrite in_app_iff in Hd.
    assert (Z : sreg (gnodes g) x = 0%nat).
    { destruct (sreg (gnodes g) x) as [|t] eqn:Et; [reflexivity|]. exfalso.
      destruct (sreg_pos (gnodes g) x ltac:(lia)) as (pre & n & post & Esp & Hp). destruct (nreg_pos n x Hp) as (a & Ha & Ra & Ea).
      pose proof (whole_order g L pre n post a Esp Ha Ra) as Ho. rewrite Ea in Ho. apply in_app_or in Ho. apply Hd.
      destruct Ho as [Ho|Ho]; [left; exact Ho|right]. rewrite Esp, flat_map_app. apply in_or_app. left; exact Ho. }
    rewrite build_eq, reg_returned_other.
    - rewrite reg_nodes_other; [|tauto|exact Z]. rewrite reg_vars_other; [reflexivity|tauto].
    - destruct (times x (filter is_tensor (gouts g))) as [|t] eqn:Et; [reflexivity|]. exfalso.
      assert (Hin : In x (map aname (filter is_tensor (gouts g)))) by (apply (count_occ_In string_dec); unfold times in Et; rewrite Et; lia).
      apply in_map_iff in Hin. destruct Hin as (a & Ea & Ha). apply filter_In in Ha. destruct Ha as [Ha _].
      destruct (li_outputs g L a Ha) as (c & Ec & _ & Hc). apply Hd. rewrite <- Ea, <- Ec.
      destruct Hc as [Hc|(m & Hm & Hc)]; [left; apply in_map; exact Hc|right]. apply in_flat_map. exists m. split; [exact Hm|apply in_map; exact Hc].
  Qed.

  Lemma accepted_flow : outputs_once g -> scalars_unread g -> accepted (codegen_forward g).
  Proof.
    intros O U. unfold accepted, codegen_forward. destruct (whole_names g L) as (SSA & NL & _).
    set (f0 := fold_left (fun f x => set f x true) (map aname (gins g)) empty).
    assert (H0 : forall a, In a (gins g) -> f0 (aname a) = Some true).
    { intros a Ha. apply declare_live. right. apply in_map. exact Ha. }
    destruct (convert_ok Copied (gins g) f0) as (f1 & E1 & M1); [intros; apply H0; assumption|].
    assert (H1 : forall a, In a (gins g) -> f1 (aname a) = Some true) by (intros; apply M1, H0; assumption).
    destruct (level_ok g L [] (build_scope g) f1 0) as (f2' & rest2 & (t2 & E2 & Q2) & V2 & L2' & _).
    - intros n Hn. apply legal_step; [exact (NODES n Hn)|exact (whole_covered g L n Hn)|exact (node_names g L n Hn)].
    - exact U.
    - exact whole_entries.
    - intros b Hb. split; intros; apply has_top, H1; exact Hb.
    - exact whole_fresh.
    - destruct rest2 as [|? ?]; [|destruct V2 as (_ & _ & [])].
      destruct t2 as [|f2 t2]; [inversion Q2|]. destruct t2 as [|? ?]; [|inversion Q2 as [|? ? ? ? _ Q3]; inversion Q3].
      pose proof (live_same _ _ _ _ Q2 L2') as L2. clear L2' Q2 V2.
      assert (HT : forall x, has [f2] x = true -> f2 x = Some true) by (intros x Hx; cbn in Hx; destruct (f2 x) as [[]|]; [reflexivity|discriminate|discriminate]).
      assert (H2 : forall a, In a (gouts g) -> f2 (aname a) = Some true).
      { intros a Ha. destruct (li_outputs g L a Ha) as (c & Ec & Tc & Hc).
        assert (Hc' : In c (gins g ++ flat_map c_outputs (gnodes g))).
        { apply in_or_app. destruct Hc as [Hc|(m & Hm & Hc)]; [left; exact Hc|right]. apply in_flat_map. exists m. auto. }
        destruct (L2 c Hc') as [P Q]. rewrite Ec, Tc in *. apply HT. destruct (tracked a) eqn:T.
        - apply Q; [reflexivity|]. unfold tracked in T. destruct (aty a) eqn:Ea; try discriminate.
          + right. exists a. split; [exact Ha|]. split; [unfold is_scalar_tensor; rewrite Ea; reflexivity|reflexivity].
          + left. unfold R. apply times_pos, in_map, filter_In. split; [exact Ha|]. unfold is_tensor. rewrite Ea. reflexivity.
        - exact (P eq_refl). }
      destruct (convert_ok Moved (gouts g) f2) as (f3 & E3 & M3); [intros; apply H2; assumption|].
      rewrite (exec_app [Let (map aname (gins g))]). change (exec [Let (map aname (gins g))] [empty]) with (Some [f0]). cbn iota.
      rewrite exec_app. match goal with |- match ?e with _ => _ end <> _ => replace e with (Some [f1]) by (symmetry; exact E1) end. cbn iota.
      rewrite exec_app, E2, exec_app. match goal with |- match ?e with _ => _ end <> _ => replace e with (Some [f3]) by (symmetry; exact E3) end. cbn iota.
      apply return_ok; [intros; apply M3, H2; assumption|exact O|].
      intros a b Ha Hb E. destruct (li_outputs g L a Ha) as (a' & Ea & Ta & Hda). destruct (li_outputs g L b Hb) as (b' & Eb & Tb & Hdb).
      assert (a' = b'); [|congruence]. rewrite <- names_flat in SSA. apply (NoDup_map_inj aname _ a' b' SSA); [| |congruence]; apply in_or_app.
      + destruct Hda as [Hc|(m & Hm & Hc)]; [left; exact Hc|right]. apply in_flat_map. exists m. auto.
      + destruct Hdb as [Hc|(m & Hm & Hc)]; [left; exact Hc|right]. apply in_flat_map. exists m. auto.
  Qed.
End Whole.
