From Verif Require Import Util Files_Spec Files_Model.
From Coq Require Import Lia.

Lemma last_dot_none s : dotless s = true -> last_dot s = None.
Proof.
  induction s as [|c s IH]; intros H; [reflexivity|]. unfold dotless in H. cbn in H |- *. apply andb_prop in H. destruct H as [H1 H2].
  rewrite (IH H2). destruct (Ascii.eqb c "."); [discriminate|reflexivity].
Qed.
Lemma last_dot_app b e : dotless e = true -> last_dot (b ++ "." ++ e)%string = Some (b, e).
Proof.
  intros H. induction b as [|c b IH]; [cbn; rewrite (last_dot_none e H); reflexivity|]. cbn [String.append last_dot].
  change (b ++ String "." e)%string with (b ++ "." ++ e)%string. rewrite IH. reflexivity.
Qed.
Lemma dot_split a b x y : dotless a = true -> dotless b = true -> (a ++ "." ++ x = b ++ "." ++ y)%string -> a = b /\ x = y.
Proof.
  revert b. induction a as [|c a IH]; intros b Ha Hb E.
  - destruct b as [|d b]; cbn in E; [injection E as ->; auto|]. injection E as <- _. discriminate Hb.
  - destruct b as [|d b]; cbn in E; [injection E as -> _; discriminate Ha|]. injection E as -> E.
    unfold dotless in *. cbn in Ha, Hb. apply andb_prop in Ha, Hb. destruct (IH b) as [-> ->]; tauto || auto.
Qed.
Lemma stem_dotless b : base_name b -> stem_of b = b.
Proof.
  intros (r & [-> | ->] & Hn & H); unfold stem_of.
  - destruct (String.eqb_spec r ".."); [subst; reflexivity|]. rewrite last_dot_none by exact H. reflexivity.
  - destruct (String.eqb_spec ("." ++ r)%string ".."); [reflexivity|]. cbn. rewrite last_dot_none by exact H. reflexivity.
Qed.
Lemma base_nonempty b : base_name b -> b <> ""%string.
Proof. intros (r & [-> | ->] & Hn & _); [exact Hn|discriminate]. Qed.
Lemma not_dots b : base_name b -> String.eqb b "." = false /\ String.eqb b ".." = false.
Proof.
  intros (r & [-> | ->] & Hn & H); split; apply String.eqb_neq; intros E; try (subst r; discriminate).
  - cbn in E. injection E as ->. contradiction.
  - cbn in E. injection E as ->. discriminate.
Qed.
Lemma ext_not_dots b e : base_name b -> String.eqb (b ++ "." ++ e)%string ".." = false.
Proof.
  intros (r & [-> | ->] & Hn & H); apply String.eqb_neq; intros E; destruct r as [|c r]; try contradiction; cbn in E.
  - injection E as -> _. discriminate H.
  - injection E as -> E. destruct r; discriminate.
Qed.
Lemma stem_ext b e : base_name b -> dotless e = true -> stem_of (b ++ "." ++ e)%string = b.
Proof.
  intros Hb He. unfold stem_of. rewrite ext_not_dots by exact Hb.
  rewrite last_dot_app by exact He. destruct (String.eqb_spec b ""); [|reflexivity]. exfalso. exact (base_nonempty b Hb e0).
Qed.

Lemma last_comp_snoc d x : last_comp (d ++ [x]) = if String.eqb x ".." then None else Some x.
Proof. induction d as [|y d IH]; [reflexivity|]. cbn [app last_comp]. rewrite IH. destruct d; reflexivity. Qed.
Lemma with_extension_snoc d x e : with_extension (d ++ [x]) e = d ++ [if String.eqb x ".." then x else (stem_of x ++ "." ++ e)%string].
Proof.
  induction d as [|y d IH].
  - cbn. destruct (String.eqb x ".."); reflexivity.
  - cbn [app with_extension]. rewrite IH. destruct d; reflexivity.
Qed.

Lemma named_stem i b : named i b -> file_stem i = Some b.
Proof.
  intros (Hb & d & [-> |(e & -> & He)]); unfold file_stem; rewrite last_comp_snoc.
  - destruct (not_dots b Hb) as [_ ->]. cbn [option_map]. rewrite stem_dotless by exact Hb. reflexivity.
  - rewrite ext_not_dots by exact Hb. cbn [option_map]. rewrite stem_ext by assumption. reflexivity.
Qed.
Lemma join_named d b : base_name b -> join d b = d ++ [b].
Proof. intros H. unfold join. destruct (not_dots b H) as [-> _]. reflexivity. Qed.
Lemma out_file d b e : base_name b -> with_extension (d ++ [b]) e = in_dir d b e.
Proof. intros H. rewrite with_extension_snoc. destruct (not_dots b H) as [_ ->]. rewrite stem_dotless by exact H. reflexivity. Qed.
Lemma out_again d b e e' : base_name b -> dotless e = true -> with_extension (in_dir d b e) e' = in_dir d b e'.
Proof. intros H He. unfold in_dir. rewrite with_extension_snoc, ext_not_dots, stem_ext by assumption. reflexivity. Qed.

Lemma in_dir_inj d b b' e e' : base_name b -> base_name b' -> in_dir d b e = in_dir d b' e' -> b = b' /\ e = e'.
Proof.
  intros H H' E. unfold in_dir in E. apply app_inv_head in E. injection E as E.
  destruct H as (r & [-> | ->] & Hn & H), H' as (r' & [-> | ->] & Hn' & H').
  - apply dot_split in E; assumption.
  - destruct r as [|c r]; [contradiction|]. cbn in E. injection E as -> _. discriminate H.
  - destruct r' as [|c r']; [contradiction|]. cbn in E. injection E as <- _. discriminate H'.
  - cbn in E. injection E as E. apply dot_split in E; [|assumption|assumption]. destruct E as [-> ->]. auto.
Qed.

Section Run.
  Variable bytes : Type.
  Variable generate : path -> path -> bytes -> option (bytes * bytes).
  Variable dump : bytes -> bytes.
  Variable dev : bool.
  Variable dir : path.

  Definition out_of (b : string) (p : path) : Prop :=
    p = in_dir dir b "rs" \/ p = in_dir dir b "bpk" \/ (dev = true /\ p = in_dir dir b "onnx.txt").

  (** What one model leaves in its files. *)
  Definition produced (f f' : files bytes) (i : path) (b : string) : Prop :=
    exists content code weights, f i = Some content /\ generate i (in_dir dir b "bpk") content = Some (code, weights) /\
      f' (in_dir dir b "rs") = Some code /\ f' (in_dir dir b "bpk") = Some weights /\
      (dev = true -> f' (in_dir dir b "onnx.txt") = Some (dump content)).

  Lemma write_same (f : files bytes) p v : write f p v p = Some v.
  Proof. unfold write. destruct (path_dec p p); [reflexivity|contradiction]. Qed.
  Lemma write_other (f : files bytes) p q v : p <> q -> write f p v q = f q.
  Proof. unfold write. intros H. destruct (path_dec p q); [contradiction|reflexivity]. Qed.

  Lemma one_model i b f f' : named i b -> generate_model bytes generate dump dev i (join dir b) f = Some f' ->
    produced f f' i b /\ forall p, ~ out_of b p -> f' p = f p.
  Proof.
    intros Hi E. assert (Hb : base_name b) by apply Hi. unfold generate_model in E. rewrite join_named in E by exact Hb.
    rewrite !out_file in E by exact Hb. rewrite out_again in E by (assumption || reflexivity).
    destruct (f i) as [content|] eqn:Ef; [|discriminate].
    destruct (generate _ (in_dir dir b "bpk") content) as [[code weights]|] eqn:Eg; [|discriminate]. injection E as <-.
    assert (N1 : in_dir dir b "rs" <> in_dir dir b "bpk") by (intros X; apply in_dir_inj in X; [destruct X as [_ X]; discriminate|exact Hb|exact Hb]).
    assert (N2 : in_dir dir b "rs" <> in_dir dir b "onnx.txt") by (intros X; apply in_dir_inj in X; [destruct X as [_ X]; discriminate|exact Hb|exact Hb]).
    assert (N3 : in_dir dir b "bpk" <> in_dir dir b "onnx.txt") by (intros X; apply in_dir_inj in X; [destruct X as [_ X]; discriminate|exact Hb|exact Hb]).
    split.
    - exists content, code, weights. split; [exact Ef|]. split; [exact Eg|]. split; [apply write_same|]. split.
      + rewrite write_other by exact N1. apply write_same.
      + intros Ed. rewrite write_other by exact N2. rewrite write_other by exact N3. rewrite Ed. apply write_same.
    - intros p Hp. unfold out_of in Hp. rewrite write_other by intuition congruence. rewrite write_other by intuition congruence.
      destruct dev; [rewrite write_other by intuition congruence|]; reflexivity.
  Qed.

  Lemma run_ok : forall inputs bases f f', Forall2 named inputs bases -> NoDup bases ->
    (forall i b, In i inputs -> In b bases -> ~ out_of b i) ->
    run bytes generate dump dev dir inputs f = Some f' ->
    (forall k i b, nth_error inputs k = Some i -> nth_error bases k = Some b -> produced f f' i b) /\
    (forall p, (forall b, In b bases -> ~ out_of b p) -> f' p = f p).
  Proof.
    intros inputs bases f f' H. revert f f'. induction H as [|i b inputs bases Hi Hr IH]; intros f f' N A E.
    - cbn in E. injection E as <-. split; [intros [|k]; discriminate|reflexivity].
    - cbn [run] in E. rewrite (named_stem i b Hi) in E.
      destruct (generate_model bytes generate dump dev i (join dir b) f) as [f1|] eqn:E1; [|discriminate].
      destruct (one_model i b f f1 Hi E1) as (P1 & O1). inversion N as [|? ? Nb Nr]; subst.
      assert (Hdl : forall c, In c (b :: bases) -> base_name c).
      { intros c [<-|Hc]; [apply Hi|].
        clear -Hr Hc. induction Hr as [|x y l l' Hxy Hl IHl]; [destruct Hc|]. destruct Hc as [<-|Hc]; [|auto].
        apply Hxy. }
      destruct (IH f1 f' Nr) as (P2 & O2); [intros; apply A; right; assumption|exact E|].
      assert (Keep : forall p, out_of b p -> f' p = f1 p).
      { intros p Hp. apply O2. intros c Hc Hpc. assert (Hcb : c = b).
        { assert (exists e e', in_dir dir c e = in_dir dir b e').
          { unfold out_of in *. destruct Hp as [->|[->|[_ ->]]], Hpc as [X|[X|[_ X]]]; symmetry in X; eauto. }
          destruct H as (e & e' & X). apply in_dir_inj in X; [exact (proj1 X)|apply Hdl; right; exact Hc|apply Hdl; left; reflexivity]. }
        subst c. contradiction. }
      split.
      + intros [|k] j c Hj Hc; cbn in Hj, Hc.
        * injection Hj as <-. injection Hc as <-. destruct P1 as (content & code & weights & A1 & A2 & A3 & A4 & A5).
          exists content, code, weights. split; [exact A1|]. split; [exact A2|].
          split; [rewrite Keep by (left; reflexivity); exact A3|]. split; [rewrite Keep by (right; left; reflexivity); exact A4|].
          intros Ed. rewrite Keep by (right; right; split; [exact Ed|reflexivity]). exact (A5 Ed).
        * destruct (P2 k j c Hj Hc) as (content & code & weights & A1 & A2). exists content, code, weights. split; [|exact A2].
          rewrite <- A1. symmetry. apply O1. apply A; [right; eapply nth_error_In; exact Hj|left; reflexivity].
      + intros p Hp. rewrite O2 by (intros c Hc; apply Hp; right; exact Hc). apply O1. apply Hp. left; reflexivity.
  Qed.

  (** It succeeds if every model can be read and converted. *)
  Lemma run_total : forall inputs bases f, Forall2 named inputs bases -> NoDup bases ->
    (forall i b, In i inputs -> In b bases -> ~ out_of b i) ->
    (forall k i b, nth_error inputs k = Some i -> nth_error bases k = Some b ->
       exists content r, f i = Some content /\ generate i (in_dir dir b "bpk") content = Some r) ->
    exists f', run bytes generate dump dev dir inputs f = Some f'.
  Proof.
    intros inputs bases f H. revert f. induction H as [|i b inputs bases Hi Hr IH]; intros f N A G; [eexists; reflexivity|].
    cbn [run]. rewrite (named_stem i b Hi). inversion N as [|? ? Nb Nr]; subst.
    destruct (G 0%nat i b eq_refl eq_refl) as (content & [code weights] & Ec & Eg).
    destruct (generate_model bytes generate dump dev i (join dir b) f) as [f1|] eqn:E1.
    - destruct (one_model i b f f1 Hi E1) as (_ & O1). apply IH; [exact Nr|intros; apply A; right; assumption|].
      intros k j c Hj Hc. destruct (G (S k) j c Hj Hc) as (ct & r & X & Y). exists ct, r. split; [|exact Y]. rewrite <- X. apply O1.
      apply A; [right; eapply nth_error_In; exact Hj|left; reflexivity].
    - exfalso. assert (Hb : base_name b) by apply Hi. unfold generate_model in E1. rewrite join_named in E1 by exact Hb.
      rewrite !out_file in E1 by exact Hb. rewrite out_again in E1 by (assumption || reflexivity). rewrite Ec, Eg in E1. discriminate.
  Qed.
End Run.
