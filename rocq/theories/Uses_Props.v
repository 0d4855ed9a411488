(** C78: the generated file names only what is in scope. *)
From Coq Require Import OrderedTypeEx Sorting.Sorted.
From Verif Require Import IR_Model Uses_Spec Uses_Model Uses_Proofs.
Local Open Scope string_scope.
Local Open Scope list_scope.

Lemma lines_in bp g lines : use_lines bp g lines ->
  exists all, all_registered bp g = Some all /\ (forall p, In p lines <-> In p all) /\ increasing lines.
Proof.
  intros [all [walk [Ha [Hn [Hw Hc]]]]]. exists all. split; [exact Ha|]. unfold codegen in Hc.
  destruct (forallb is_path (sort walk)); [|discriminate Hc]. injection Hc as <-. split.
  - intros p. rewrite sort_in. apply Hw.
  - apply sort_increasing. exact Hn.
Qed.

(** Full statement: every name that the code of a node begins a path with, at any
    depth of branches and bodies, is in scope.  Missing: the crates [alloc] and
    [half] (see [C78_names_refuted]). *)
Theorem C78_names_partial : forall bp g lines, Forall shaped g -> use_lines bp g lines ->
  forall n x, In n g -> In x (mentioned n) -> x <> "alloc" -> x <> "half" -> in_scope lines x.
Proof.
  intros bp g lines Hg Hl n x Hn Hx H1 H2. destruct (lines_in bp g lines Hl) as [all [Ha [Hin _]]].
  unfold all_registered in Ha. destruct (sequence_all _ _ Ha (sequence (map register_imports g))) as [b Hb]; [right; left; reflexivity|].
  destruct (sequence_all _ _ Hb (register_imports n)) as [c Hc]; [apply in_map; exact Hn|].
  apply (in_scope_incl c).
  - intros p Hp. apply Hin. apply (sequence_in _ _ p Ha). exists b. split; [right; left; exact Hb|].
    apply (sequence_in _ _ p Hb). exists c. split; [apply in_map_iff; exists n; split; [exact Hc|exact Hn]|exact Hp].
  - rewrite Forall_forall in Hg. apply (node_covered n (Hg n Hn) c Hc x Hx). unfold foreign.
    apply String.eqb_neq in H1, H2. rewrite H1, H2. reflexivity.
Qed.
Print Assumptions C78_names_partial.

(** The loading code's names are in scope too, when parameters are loaded. *)
Theorem C78_store_names : forall g lines, use_lines true g lines -> in_scope lines "BurnpackStore" /\ in_scope lines "ModuleSnapshot".
Proof.
  intros g lines Hl. destruct (lines_in true g lines Hl) as [all [Ha [Hin _]]].
  assert (H : forall p, In p ["burn_store::BurnpackStore"; "burn_store::ModuleSnapshot"] -> In p lines).
  { intros p Hp. apply Hin. apply (sequence_in _ _ p Ha). eexists. split; [left; reflexivity|exact Hp]. }
  split; right; right; eexists; (split; [apply H|]).
  - left. reflexivity.
  - reflexivity.
  - right. left. reflexivity.
  - reflexivity.
Qed.
Print Assumptions C78_store_names.

(** The lines do not depend on the order in which the set is walked: one graph
    gives one file.  They are in increasing order, so none comes twice. *)
Theorem C78_deterministic : forall bp g l m, use_lines bp g l -> use_lines bp g m -> l = m.
Proof.
  intros bp g l m Hl Hm. destruct (lines_in bp g l Hl) as [a [Ha [Hia Hla]]]. destruct (lines_in bp g m Hm) as [b [Hb [Hib Hlb]]].
  rewrite Ha in Hb. injection Hb as <-. apply increasing_unique; try assumption. intros x. rewrite Hia, Hib. reflexivity.
Qed.
Print Assumptions C78_deterministic.

Theorem C78_increasing : forall bp g l, use_lines bp g l -> increasing l /\ NoDup l.
Proof. intros bp g l Hl. destruct (lines_in bp g l Hl) as [a [_ [_ H]]]. split; [exact H|]. apply increasing_nodup. exact H. Qed.
Print Assumptions C78_increasing.

(** No two lines bring the same name: the compiler would refuse them. *)
Theorem C78_no_clash : forall bp g l p q, use_lines bp g l -> In p l -> In q l -> brings p = brings q -> p = q.
Proof.
  intros bp g l p q Hl Hp Hq E. destruct (lines_in bp g l Hl) as [a [Ha [Hin _]]].
  pose proof (all_known bp g a Ha p (proj1 (Hin p) Hp)) as Kp. pose proof (all_known bp g a Ha q (proj1 (Hin q) Hq)) as Kq.
  pose proof known_apart as K. rewrite forallb_forall in K. specialize (K p Kp). rewrite forallb_forall in K. specialize (K q Kq).
  rewrite E, String.eqb_refl in K. cbn in K. apply String.eqb_eq. exact K.
Qed.
Print Assumptions C78_no_clash.

(** A file is generated for every graph whose pooled inputs have rank three or
    four: no path fails to parse, and nothing else panics. *)
Theorem C78_no_panic : forall bp g, Forall supported g -> exists l, use_lines bp g l.
Proof.
  intros bp g Hg. destruct (sequence_some (map register_imports g)) as [b Hb].
  { intros o Ho. apply in_map_iff in Ho. destruct Ho as [m [<- Hm]]. rewrite Forall_forall in Hg. apply node_supported. apply Hg. exact Hm. }
  assert (Ha : exists a, all_registered bp g = Some a).
  { unfold all_registered. rewrite Hb. eexists. reflexivity. }
  destruct Ha as [a Ha]. exists (sort (nodup string_dec a)), a, (nodup string_dec a). split; [exact Ha|].
  split; [apply NoDup_nodup|]. split; [apply nodup_In|]. unfold codegen.
  assert (Hf : forallb is_path (sort (nodup string_dec a)) = true).
  { apply forallb_forall. intros p Hp. apply sort_in, nodup_In in Hp. pose proof known_valid as K. rewrite forallb_forall in K.
    apply K. exact (all_known bp g a Ha p Hp). }
  rewrite Hf. reflexivity.
Qed.
Print Assumptions C78_no_panic.

(** A file is generated for no other graph: a global pooling of an input of
    another rank, at any depth, stops the generation. *)
Theorem C78_pool_refused : forall bp g lines, Forall shaped g -> use_lines bp g lines -> Forall supported g.
Proof.
  assert (N : forall n, shaped n -> register_imports n <> None -> supported n).
  { apply (inode_ind2 (fun n => shaped n -> register_imports n <> None -> supported n)).
    intros k subs IH [Hk Hsub] Hn. cbn [register_imports] in Hn.
    destruct (sequence [if has_graphs k then sequence (map (fun l => sequence (map register_imports l)) subs) else Some []; registers k]) as [b|] eqn:E;
      [|exfalso; exact (Hn eq_refl)].
    cbn [sequence] in E.
    destruct (if has_graphs k then _ else _) as [c|] eqn:Ec; [|discriminate E].
    destruct (registers k) as [d|] eqn:Ed; [|discriminate E]. clear E Hn.
    split.
    - intros r ->. cbn [registers] in Ed.
      destruct r as [|[|[|[|[|r]]]]]; try discriminate Ed; [left|right]; reflexivity.
    - assert (F : forall l, In l subs -> forall m, In m l -> supported m).
      { destruct (has_graphs k) eqn:Eg.
        - intros l Hl m Hm. rewrite Forall_forall in IH. pose proof (IH l Hl) as IHl. rewrite Forall_forall in IHl.
          apply (IHl m Hm).
          + apply (fold_and2 shaped l); [|exact Hm].
            exact (fold_and2 (fun l => fold_right (fun m q => shaped m /\ q) True l) subs Hsub l Hl).
          + assert (Q : forall ls x, sequence ls = Some x -> forall o, In o ls -> o <> None).
            { induction ls as [|o ls IHs]; intros x Hx w []; subst.
              - destruct w; [discriminate|discriminate Hx].
              - destruct o; [|discriminate Hx]. cbn in Hx. destruct (sequence ls) eqn:Es; [|discriminate Hx].
                exact (IHs _ eq_refl w H). }
            pose proof (Q _ _ Ec _ (in_map (fun l => sequence (map register_imports l)) _ _ Hl)) as Hl2. cbv beta in Hl2.
            destruct (sequence (map register_imports l)) as [y|] eqn:Ey; [|congruence].
            exact (Q _ _ Ey _ (in_map register_imports _ _ Hm)).
        - rewrite (Hk eq_refl). intros l []. }
      clear -F. induction subs as [|l r IHr]; cbn; auto. split.
      + assert (G : forall m, In m l -> supported m) by (apply F; now left).
        clear -G. induction l as [|m l IHl]; cbn; auto. split; [apply G; now left|apply IHl; intros q Hq; apply G; now right].
      + apply IHr. intros q Hq. apply F. now right. }
  intros bp g lines Hs (a & w & Ha & _). apply Forall_forall. intros n Hn.
  rewrite Forall_forall in Hs. apply (N n (Hs n Hn)). intros C.
  unfold all_registered in Ha.
  assert (Z : sequence (map register_imports g) = None).
  { clear -Hn C. induction g as [|m g IHg]; [destruct Hn|]. cbn. destruct Hn as [->|Hn].
    - now rewrite C.
    - destruct (register_imports m); [|reflexivity]. now rewrite (IHg Hn). }
  rewrite Z in Ha. discriminate Ha.
Qed.
Print Assumptions C78_pool_refused.

(** ** A case: an If with a convolution in one branch and, in the other, a Loop
    with an LSTM that has a ReLU gate. *)
Definition demo : list inode :=
  [INode KLogSoftmax [];
   INode KIf [[INode KConv2d []]; [INode (KLoop true false) [[INode (KLstm Relu Tanh Tanh false true) []; INode KConv2d []]]]]].

Example C78_demo_shaped : Forall shaped demo.
Proof. repeat constructor; discriminate. Qed.
Example C78_demo_supported : Forall supported demo.
Proof. repeat constructor; discriminate. Qed.
Example C78_demo_lines : forall l, use_lines true demo l ->
  l = ["burn::nn::ActivationConfig"; "burn::nn::Lstm"; "burn::nn::LstmConfig"; "burn::nn::LstmState"; "burn::nn::PaddingConfig2d";
       "burn::nn::conv::Conv2d"; "burn::nn::conv::Conv2dConfig"; "burn::tensor::Tensor"; "burn::tensor::activation::log_softmax";
       "burn_store::BurnpackStore"; "burn_store::ModuleSnapshot"].
Proof.
  intros l Hl. eapply C78_deterministic; [exact Hl|].
  exists (match all_registered true demo with Some a => a | None => [] end),
    (nodup string_dec (match all_registered true demo with Some a => a | None => [] end)).
  split; [reflexivity|]. split; [apply NoDup_nodup|]. split; [apply nodup_In|]. vm_compute. reflexivity.
Qed.

(** The full statement is false: a gather from a shape collects into
    [alloc::vec::Vec], and a constant of half precision is written with the crate
    [half]; no line brings these names, and a crate that uses the file has to
    declare both. *)
Theorem C78_names_refuted : forall bp, exists g lines, Forall shaped g /\ use_lines bp g lines
  /\ (exists n, In n g /\ In "alloc" (mentioned n)) /\ (exists n, In n g /\ In "half" (mentioned n))
  /\ ~ in_scope lines "alloc" /\ ~ in_scope lines "half".
Proof.
  intros bp. destruct (C78_no_panic bp [INode KGatherShape []; INode KConstHalf []]) as [l Hl].
  { repeat constructor; discriminate. }
  exists [INode KGatherShape []; INode KConstHalf []], l. split; [repeat constructor; discriminate|]. split; [exact Hl|].
  split; [exists (INode KGatherShape []); split; left; reflexivity|].
  split; [exists (INode KConstHalf []); split; [right; left; reflexivity|left; reflexivity]|].
  assert (H : forall x, existsb (String.eqb x) prelude = false -> existsb (String.eqb x) crates = false ->
    existsb (fun p => String.eqb (brings p) x) known_paths = false -> ~ in_scope l x).
  { intros x H1 H2 H3 [H|[H|[p [Hp E]]]].
    - rewrite <- not_true_iff_false in H1. apply H1. apply existsb_exists. exists x. split; [exact H|apply String.eqb_refl].
    - rewrite <- not_true_iff_false in H2. apply H2. apply existsb_exists. exists x. split; [exact H|apply String.eqb_refl].
    - rewrite <- not_true_iff_false in H3. apply H3. apply existsb_exists. exists p. split; [|apply String.eqb_eq; exact E].
      destruct (lines_in _ _ _ Hl) as [a [Ha [Hin _]]]. exact (all_known _ _ a Ha p (proj1 (Hin p) Hp)). }
  split; apply H; vm_compute; reflexivity.
Qed.
Print Assumptions C78_names_refuted.
