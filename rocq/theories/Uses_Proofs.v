(** Lemmas for C78. *)
From Coq Require Import OrderedTypeEx Sorting.Sorted.
From Verif Require Import IR_Model Uses_Spec Uses_Model.
Local Open Scope string_scope.
Local Open Scope list_scope.

Section Induction.
  Context (P : inode -> Prop) (H : forall k subs, Forall (Forall P) subs -> P (INode k subs)).
  Fixpoint inode_ind2 (n : inode) : P n :=
    match n with
    | INode k subs =>
        H k subs ((fix go (ls : list (list inode)) : Forall (Forall P) ls :=
          match ls with
          | [] => Forall_nil _
          | l :: r => Forall_cons _ ((fix go1 (l : list inode) : Forall P l :=
              match l with [] => Forall_nil _ | m :: r => Forall_cons _ (inode_ind2 m) (go1 r) end) l) (go r)
          end) subs)
    end.
End Induction.

(** ** Order. *)
Lemma lt_irrefl x : ~ String_as_OT.lt x x.
Proof. intros H. exact (String_as_OT.lt_not_eq _ _ H eq_refl). Qed.

Lemma cmp_gt a b : String_as_OT.cmp a b = Gt -> String_as_OT.lt b a.
Proof. intros H. apply String_as_OT.cmp_lt. rewrite String_as_OT.cmp_antisym, H. reflexivity. Qed.

Lemma insert_in x l y : In y (insert x l) <-> y = x \/ In y l.
Proof.
  induction l as [|z r IH]; cbn [insert].
  - cbn. intuition congruence.
  - destruct (String_as_OT.cmp x z); cbn [In]; try (intuition congruence).
Qed.

Lemma sort_in l y : In y (sort l) <-> In y l.
Proof. induction l as [|x r IH]; cbn [sort fold_right]; [reflexivity|]. rewrite insert_in, IH. cbn. intuition congruence. Qed.

Lemma insert_increasing x l : increasing l -> ~ In x l -> increasing (insert x l).
Proof.
  unfold increasing. induction l as [|y r IH]; intros Hs Hx; cbn [insert].
  - constructor; constructor.
  - destruct (String_as_OT.cmp x y) eqn:E.
    + apply String_as_OT.cmp_eq in E. subst. destruct Hx. left. reflexivity.
    + apply String_as_OT.cmp_lt in E. constructor; [exact Hs|]. constructor; [exact E|].
      inversion Hs as [|? ? _ Hall]; subst. eapply Forall_impl; [|exact Hall]. intros z Hz. exact (String_as_OT.lt_trans _ _ _ E Hz).
    + apply cmp_gt in E. inversion Hs as [|? ? Hr Hall]; subst. constructor.
      * apply IH; [exact Hr|]. intros Hin. apply Hx. right. exact Hin.
      * apply Forall_forall. intros z Hz. apply insert_in in Hz. destruct Hz as [-> |Hz]; [exact E|].
        rewrite Forall_forall in Hall. apply Hall. exact Hz.
Qed.

Lemma sort_increasing l : NoDup l -> increasing (sort l).
Proof.
  induction 1 as [|x r Hx Hr IH]; cbn [sort fold_right]; [constructor|].
  apply insert_increasing; [exact IH|]. intros H. apply Hx. apply sort_in. exact H.
Qed.

Lemma increasing_unique : forall l m, increasing l -> increasing m -> (forall x, In x l <-> In x m) -> l = m.
Proof.
  unfold increasing. induction l as [|x r IH]; intros m Hl Hm He.
  - destruct m as [|y s]; [reflexivity|]. exfalso. apply (proj2 (He y)). left. reflexivity.
  - destruct m as [|y s]; [exfalso; apply (proj1 (He x)); left; reflexivity|].
    inversion Hl as [|? ? Hr Hx]; subst. inversion Hm as [|? ? Hs Hy]; subst.
    rewrite Forall_forall in Hx, Hy.
    assert (Exy : x = y).
    { destruct (proj1 (He x) (or_introl eq_refl)) as [-> |Hin]; [reflexivity|].
      destruct (proj2 (He y) (or_introl eq_refl)) as [-> |Hin2]; [reflexivity|].
      exfalso. exact (lt_irrefl x (String_as_OT.lt_trans _ _ _ (Hx y Hin2) (Hy x Hin))). }
    subst y. f_equal. apply IH; [exact Hr|exact Hs|]. intros z. split; intros Hz.
    + destruct (proj1 (He z) (or_intror Hz)) as [<- |H]; [|exact H]. exfalso. exact (lt_irrefl x (Hx x Hz)).
    + destruct (proj2 (He z) (or_intror Hz)) as [<- |H]; [|exact H]. exfalso. exact (lt_irrefl x (Hy x Hz)).
Qed.

Lemma increasing_nodup l : increasing l -> NoDup l.
Proof.
  unfold increasing. induction 1 as [|x r Hr IH Hx]; constructor; [|exact IH].
  rewrite Forall_forall in Hx. intros Hin. exact (lt_irrefl x (Hx x Hin)).
Qed.

(** ** Registrations. *)
Lemma sequence_in : forall l b p, sequence l = Some b -> (In p b <-> exists a, In (Some a) l /\ In p a).
Proof.
  induction l as [|[a|] r IH]; intros b p Hb; cbn [sequence] in Hb; [| |discriminate Hb].
  - injection Hb as <-. split; [intros []|]. intros [a [[] _]].
  - destruct (sequence r) as [c|] eqn:E; [|discriminate Hb]. injection Hb as <-. rewrite in_app_iff, (IH c p eq_refl). split.
    + intros [H|[d [Hd Hp]]]; [exists a; split; [left; reflexivity|exact H]|exists d; split; [right; exact Hd|exact Hp]].
    + intros [d [[Hd|Hd] Hp]]; [injection Hd as <-; left; exact Hp|right; exists d; split; assumption].
Qed.

Lemma sequence_all : forall l b, sequence l = Some b -> forall o, In o l -> exists a, o = Some a.
Proof.
  induction l as [|[a|] r IH]; intros b Hb o Ho; cbn [sequence] in Hb; [destruct Ho| |discriminate Hb].
  destruct Ho as [<- |Ho]; [exists a; reflexivity|]. destruct (sequence r) as [c|] eqn:E; [|discriminate Hb].
  exact (IH c eq_refl o Ho).
Qed.

Definition covered (lines : list string) (x : string) : bool :=
  existsb (String.eqb x) prelude || existsb (String.eqb x) crates || existsb (fun p => String.eqb (brings p) x) lines.

Lemma covered_scope lines x : covered lines x = true -> in_scope lines x.
Proof.
  unfold covered, in_scope. rewrite !orb_true_iff, !existsb_exists. intros [[[y [Hy E]]|[y [Hy E]]]|[p [Hp E]]].
  - apply String.eqb_eq in E. subst. left. exact Hy.
  - apply String.eqb_eq in E. subst. right. left. exact Hy.
  - apply String.eqb_eq in E. right. right. exists p. split; assumption.
Qed.

Definition foreign (x : string) : bool := String.eqb x "alloc" || String.eqb x "half".

Lemma kind_covered k a : registers k = Some a -> forallb (fun x => foreign x || covered a x) (mentions k) = true.
Proof.
  destruct k as [ | | | |r| | | | | | | |b| | | |t| | |g c h b i|h b i| | | |b|s b|s|e| |c s| | | | ];
    cbn [registers]; intros H; try (injection H as <-; vm_compute; reflexivity).
  - destruct r as [|[|[|[|[|r]]]]]; try discriminate H; injection H as <-; vm_compute; reflexivity.
  - destruct b; injection H as <-; vm_compute; reflexivity.
  - destruct t; injection H as <-; vm_compute; reflexivity.
  - injection H as <-. destruct g, c, h, b, i; vm_compute; reflexivity.
  - injection H as <-. destruct h, b, i; vm_compute; reflexivity.
  - destruct b; injection H as <-; vm_compute; reflexivity.
  - destruct s, b; injection H as <-; vm_compute; reflexivity.
  - destruct s; injection H as <-; vm_compute; reflexivity.
  - destruct e; injection H as <-; vm_compute; reflexivity.
  - destruct c, s; injection H as <-; vm_compute; reflexivity.
Qed.

Lemma in_scope_incl a b x : (forall p, In p a -> In p b) -> in_scope a x -> in_scope b x.
Proof. intros H [Hx|[Hx|[p [Hp E]]]]; [left; exact Hx|right; left; exact Hx|right; right; exists p; split; auto]. Qed.

Lemma fold_and2 {A} (p : A -> Prop) l : fold_right (fun x q => p x /\ q) True l -> forall x, In x l -> p x.
Proof. induction l; cbn; [tauto|]. intros [H1 H2] x [<-|Hx]; auto. Qed.

Lemma node_covered : forall n, shaped n -> forall a, register_imports n = Some a ->
  forall x, In x (mentioned n) -> foreign x = false -> in_scope a x.
Proof.
  apply (inode_ind2 (fun n => shaped n -> forall a, register_imports n = Some a ->
    forall x, In x (mentioned n) -> foreign x = false -> in_scope a x)).
  intros k subs IH [Hk Hsub] a Ha x Hx Hf. cbn [register_imports] in Ha.
  pose proof (sequence_all _ _ Ha) as SA.
  cbn [mentioned] in Hx. apply in_app_iff in Hx. destruct Hx as [Hx|Hx].
  - destruct (SA (registers k)) as [b Hb]; [right; left; reflexivity|].
    pose proof (kind_covered k b Hb) as Hc. rewrite forallb_forall in Hc. specialize (Hc x Hx). rewrite Hf in Hc. cbn [orb] in Hc.
    apply (in_scope_incl b); [|apply covered_scope; exact Hc].
    intros p Hp. apply (sequence_in _ _ p Ha). exists b. rewrite <- Hb. split; [right; left; reflexivity|exact Hp].
  - destruct (has_graphs k) eqn:Eg; [|rewrite (Hk eq_refl) in Hx; destruct Hx].
    apply in_flat_map in Hx. destruct Hx as [l [Hl Hx]]. apply in_flat_map in Hx. destruct Hx as [m [Hm Hx]].
    destruct (SA (sequence (map (fun l => sequence (map register_imports l)) subs))) as [b Hb]; [left; reflexivity|].
    destruct (sequence_all _ _ Hb (sequence (map register_imports l))) as [c Hc].
    { apply in_map_iff. exists l. split; [reflexivity|exact Hl]. }
    destruct (sequence_all _ _ Hc (register_imports m)) as [d Hd].
    { apply in_map. exact Hm. }
    rewrite Forall_forall in IH. specialize (IH l Hl). rewrite Forall_forall in IH.
    apply (in_scope_incl d).
    + intros p Hp. apply (sequence_in _ _ p Ha). exists b. split; [left; exact Hb|].
      apply (sequence_in _ _ p Hb). exists c. split; [apply in_map_iff; exists l; split; [exact Hc|exact Hl]|].
      apply (sequence_in _ _ p Hc). exists d. split; [apply in_map_iff; exists m; split; [exact Hd|exact Hm]|exact Hp].
    + apply (IH m Hm); try assumption. apply (fold_and2 shaped l); [|exact Hm].
      exact (fold_and2 (fun l => fold_right (fun m q => shaped m /\ q) True l) subs Hsub l Hl).
Qed.

(** ** The paths that can be registered. *)
Definition known_paths : list string :=
  ["burn_store::BurnpackStore"; "burn_store::ModuleSnapshot";
   "burn::nn::pool::AvgPool1d"; "burn::nn::pool::AvgPool1dConfig"; "burn::nn::PaddingConfig1d";
   "burn::nn::pool::AvgPool2d"; "burn::nn::pool::AvgPool2dConfig"; "burn::nn::PaddingConfig2d";
   "burn::nn::pool::MaxPool1d"; "burn::nn::pool::MaxPool1dConfig"; "burn::nn::pool::MaxPool2d"; "burn::nn::pool::MaxPool2dConfig";
   "burn::nn::pool::AdaptiveAvgPool1d"; "burn::nn::pool::AdaptiveAvgPool1dConfig";
   "burn::nn::pool::AdaptiveAvgPool2d"; "burn::nn::pool::AdaptiveAvgPool2dConfig";
   "burn::nn::conv::Conv1d"; "burn::nn::conv::Conv1dConfig"; "burn::nn::conv::Conv2d"; "burn::nn::conv::Conv2dConfig";
   "burn::nn::PaddingConfig3d"; "burn::nn::conv::Conv3d"; "burn::nn::conv::Conv3dConfig";
   "burn::nn::conv::ConvTranspose1d"; "burn::nn::conv::ConvTranspose1dConfig";
   "burn::nn::conv::ConvTranspose2d"; "burn::nn::conv::ConvTranspose2dConfig";
   "burn::nn::conv::ConvTranspose3d"; "burn::nn::conv::ConvTranspose3dConfig";
   "burn::nn::conv::DeformConv2d"; "burn::nn::conv::DeformConv2dConfig";
   "burn::nn::BatchNorm"; "burn::nn::BatchNormConfig"; "burn::nn::GroupNorm"; "burn::nn::GroupNormConfig";
   "burn::nn::InstanceNorm"; "burn::nn::InstanceNormConfig"; "burn::nn::LayerNorm"; "burn::nn::LayerNormConfig";
   "burn::nn::Linear"; "burn::nn::LinearConfig"; "burn::nn::LinearLayout"; "burn::nn::PRelu"; "burn::nn::PReluConfig";
   "burn::nn::Dropout"; "burn::nn::DropoutConfig"; "burn::nn::ActivationConfig";
   "burn::nn::BiLstm"; "burn::nn::BiLstmConfig"; "burn::nn::LstmState"; "burn::nn::Lstm"; "burn::nn::LstmConfig";
   "burn::nn::BiRnn"; "burn::nn::BiRnnConfig"; "burn::nn::RnnState"; "burn::nn::Rnn"; "burn::nn::RnnConfig";
   "burn::tensor::Distribution"; "burn::tensor::activation::log_softmax"; "burn::tensor::activation::softmax";
   "burn::tensor::TensorData"; "burn::tensor::Bool"; "burn::tensor::Tensor"].

Definition known (p : string) : bool := existsb (String.eqb p) known_paths.

Lemma known_in p : known p = true -> In p known_paths.
Proof. unfold known. rewrite existsb_exists. intros [y [Hy E]]. apply String.eqb_eq in E. subst. exact Hy. Qed.

Lemma kind_known k a : registers k = Some a -> forallb known a = true.
Proof.
  destruct k as [ | | | |r| | | | | | | |b| | | |t| | |g c h b i|h b i| | | |b|s b|s|e| |c s| | | | ];
    cbn [registers]; intros H; try (injection H as <-; vm_compute; reflexivity).
  - destruct r as [|[|[|[|[|r]]]]]; try discriminate H; injection H as <-; vm_compute; reflexivity.
  - destruct b; injection H as <-; vm_compute; reflexivity.
  - destruct t; injection H as <-; vm_compute; reflexivity.
  - injection H as <-. destruct g, c, h, b; vm_compute; reflexivity.
  - injection H as <-. destruct h, b; vm_compute; reflexivity.
  - destruct b; injection H as <-; vm_compute; reflexivity.
  - destruct s, b; injection H as <-; vm_compute; reflexivity.
  - destruct s; injection H as <-; vm_compute; reflexivity.
  - destruct e; injection H as <-; vm_compute; reflexivity.
  - destruct c, s; injection H as <-; vm_compute; reflexivity.
Qed.

Lemma node_known : forall n a, register_imports n = Some a -> forall p, In p a -> In p known_paths.
Proof.
  apply (inode_ind2 (fun n => forall a, register_imports n = Some a -> forall p, In p a -> In p known_paths)).
  intros k subs IH a Ha p Hp. cbn [register_imports] in Ha. apply (sequence_in _ _ p Ha) in Hp.
  destruct Hp as [b [[Hb|[Hb|[]]] Hp]].
  - destruct (has_graphs k); [|injection Hb as <-; destruct Hp].
    apply (sequence_in _ _ p Hb) in Hp. destruct Hp as [c [Hc Hp]]. apply in_map_iff in Hc. destruct Hc as [l [Hc Hl]].
    apply (sequence_in _ _ p Hc) in Hp. destruct Hp as [d [Hd Hp]]. apply in_map_iff in Hd. destruct Hd as [m [Hd Hm]].
    rewrite Forall_forall in IH. specialize (IH l Hl). rewrite Forall_forall in IH. exact (IH m Hm d Hd p Hp).
  - apply known_in. pose proof (kind_known k b Hb) as H. rewrite forallb_forall in H. apply H. exact Hp.
Qed.

Lemma all_known bp g a : all_registered bp g = Some a -> forall p, In p a -> In p known_paths.
Proof.
  intros Ha p Hp. unfold all_registered in Ha. apply (sequence_in _ _ p Ha) in Hp. destruct Hp as [b [[Hb|[Hb|[]]] Hp]].
  - injection Hb as <-. destruct bp; [|destruct Hp]. cbn in Hp. destruct Hp as [<- |[<- |[]]]; apply known_in; vm_compute; reflexivity.
  - apply (sequence_in _ _ p Hb) in Hp. destruct Hp as [c [Hc Hp]]. apply in_map_iff in Hc. destruct Hc as [m [Hc Hm]].
    exact (node_known m c Hc p Hp).
Qed.

Lemma known_valid : forallb is_path known_paths = true.
Proof. vm_compute. reflexivity. Qed.

Lemma known_apart : forallb (fun p => forallb (fun q => negb (String.eqb (brings p) (brings q)) || String.eqb p q) known_paths) known_paths = true.
Proof. vm_compute. reflexivity. Qed.

Lemma sequence_some : forall l, (forall o, In o l -> o <> None) -> exists b, sequence l = Some b.
Proof.
  induction l as [|o r IH]; intros H; [exists []; reflexivity|]. destruct o as [a|]; [|exfalso; exact (H None (or_introl eq_refl) eq_refl)].
  destruct IH as [b Hb]; [intros o Ho; apply H; right; exact Ho|]. exists (a ++ b). cbn [sequence]. rewrite Hb. reflexivity.
Qed.

Lemma node_supported : forall n, supported n -> register_imports n <> None.
Proof.
  apply (inode_ind2 (fun n => supported n -> register_imports n <> None)).
  intros k subs IH [Hk Hs]. cbn [register_imports].
  assert (H : exists b, sequence [if has_graphs k then sequence (map (fun l => sequence (map register_imports l)) subs) else Some []; registers k] = Some b).
  { apply sequence_some. intros o [<- |[<- |[]]].
    - destruct (has_graphs k); [|discriminate].
      destruct (sequence_some (map (fun l => sequence (map register_imports l)) subs)) as [b ->]; [|discriminate].
      intros o Ho. apply in_map_iff in Ho. destruct Ho as [l [<- Hl]].
      destruct (sequence_some (map register_imports l)) as [b ->]; [|discriminate].
      intros o Ho. apply in_map_iff in Ho. destruct Ho as [m [<- Hm]].
      rewrite Forall_forall in IH. specialize (IH l Hl). rewrite Forall_forall in IH. apply (IH m Hm).
      apply (fold_and2 supported l); [|exact Hm].
      exact (fold_and2 (fun l => fold_right (fun m q => supported m /\ q) True l) subs Hs l Hl).
    - destruct k; cbn [registers]; try discriminate. destruct (Hk rank eq_refl) as [-> | ->]; discriminate. }
  destruct H as [b ->]. discriminate.
Qed.
