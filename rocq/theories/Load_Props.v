(** C81: the generated model loads the parameters that were written for it. *)
From Verif Require Import Util Files_Spec Files_Model Files_Proofs Load_Spec Load_Model.

Lemma file_name_plain b e : base_name b -> (b ++ "." ++ e)%string <> "."%string /\ (b ++ "." ++ e)%string <> ".."%string.
Proof.
  intros H. split.
  - destruct H as (r & [-> | ->] & Hn & Hd); destruct r as [|c r]; try contradiction; cbn; intros E.
    + injection E as -> E. destruct r; discriminate.
    + discriminate.
  - apply String.eqb_neq. apply ext_not_dots. exact H.
Qed.
Lemma resolve_file cwd a d b e : base_name b ->
  resolve cwd (FPath a (in_dir d b e)) = resolve cwd (FPath a d) ++ [(b ++ "." ++ e)%string].
Proof.
  intros H. unfold resolve, in_dir. cbn [comps absolute]. rewrite fold_left_app. cbn [fold_left]. unfold step at 1.
  destruct (file_name_plain b e H) as [H1 H2]. apply String.eqb_neq in H1, H2. rewrite H1, H2. reflexivity.
Qed.
Lemma fold_plain d : plain d -> forall acc, fold_left step d acc = acc ++ d.
Proof.
  induction 1 as [|c d [H1 H2] Hd IH]; intros acc; cbn; [now rewrite app_nil_r|].
  rewrite IH. unfold step. apply String.eqb_neq in H1, H2. rewrite H1, H2. now rewrite <- app_assoc.
Qed.
Lemma resolve_plain cwd d : plain d -> resolve cwd (FPath false d) = cwd ++ d.
Proof. intros H. unfold resolve. cbn. now apply fold_plain. Qed.

Lemma write_same {A} (f : files A) p b : write f p b p = Some b.
Proof. unfold write. destruct (path_dec p p); [reflexivity|contradiction]. Qed.
Lemma write_other {A} (f : files A) p q b : p <> q -> write f p b q = f q.
Proof. unfold write. destruct (path_dec p q); [contradiction|reflexivity]. Qed.

(** What one run leaves: the parameters in the directory under the base name,
    the source beside them, and code that names this file of parameters. *)
Lemma generated embed cwd dir input b w code fs fs' l src :
  named input b -> generate_one embed cwd dir input w code fs = Some (fs', l, src) ->
  let file := FPath (absolute dir) (in_dir (comps dir) b "bpk") in
  src = resolve cwd dir ++ [(b ++ "." ++ "rs")%string] /\
  l = (if embed then IncludeBytes file (length w) else LoadFile file) /\
  fs' (resolve cwd dir ++ [(b ++ "." ++ "bpk")%string]) = Some w /\ fs' src = Some (code l).
Proof.
  intros Hn H file. pose proof (proj1 Hn) as Hb. unfold generate_one in H.
  rewrite (named_stem _ _ Hn), (join_named _ _ Hb) in H. unfold set_ext in H. cbn [absolute comps] in H.
  rewrite !(out_file _ _ _ Hb), (out_again _ _ "bpk" "bpk" Hb eq_refl) in H.
  fold file in H. rewrite (resolve_file cwd (absolute dir) (comps dir) b "rs" Hb) in H.
  assert (Ef : resolve cwd file = resolve cwd dir ++ [(b ++ "." ++ "bpk")%string]).
  { unfold file. rewrite resolve_file by exact Hb. destruct dir; reflexivity. }
  assert (Ed : resolve cwd (FPath (absolute dir) (comps dir)) = resolve cwd dir) by (destruct dir; reflexivity).
  rewrite Ed in H.
  assert (Hne : resolve cwd dir ++ [(b ++ "." ++ "rs")%string] <> resolve cwd dir ++ [(b ++ "." ++ "bpk")%string]).
  { intros E. destruct (in_dir_inj (resolve cwd dir) b b "rs" "bpk" Hb Hb E) as [_ X]. discriminate X. }
  unfold register in H. rewrite Ef in H. destruct embed.
  - rewrite write_same in H. injection H as <- <- <-. repeat split.
    + rewrite write_other by exact Hne. apply write_same.
    + apply write_same.
  - injection H as <- <- <-. repeat split.
    + rewrite write_other by exact Hne. apply write_same.
    + apply write_same.
Qed.

Lemma absolute_any cwd cwd' p : absolute p = true -> resolve cwd p = resolve cwd' p.
Proof. intros H. unfold resolve. now rewrite H. Qed.

(** With an output directory from the root, the compiled program gets the
    parameters that were written, whether they are read or included and whatever
    the working directories are, for any files that were there before. *)
Theorem C81_absolute : forall embed cwd run_cwd dir input b w code fs fs' l src,
  named input b -> absolute dir = true ->
  generate_one embed cwd dir input w code fs = Some (fs', l, src) ->
  fs' src = Some (code l) /\ obtains fs' src run_cwd l = Some w.
Proof.
  intros embed cwd run_cwd dir input b w code fs fs' l src Hn Ha H.
  destruct (generated _ _ _ _ _ _ _ _ _ _ _ Hn H) as (Hs & Hl & Hw & Hc). split; [exact Hc|].
  assert (E : forall c, resolve c (FPath (absolute dir) (in_dir (comps dir) b "bpk")) = resolve cwd dir ++ [(b ++ "." ++ "bpk")%string]).
  { intros c. rewrite resolve_file by exact (proj1 Hn). f_equal. destruct dir as [a d]. cbn in *. subst a. reflexivity. }
  rewrite Hl. destruct embed; cbn [obtains].
  - unfold included. rewrite E, Hw, Nat.eqb_refl. reflexivity.
  - rewrite E. exact Hw.
Qed.
Print Assumptions C81_absolute.

(** In a build script this is always so: Cargo gives OUT_DIR from the root. *)
Theorem C81_script : forall embed cwd run_cwd out_dir env dir input b w code fs fs' l src,
  absolute env = true -> get_output_directory true (Some env) (Some out_dir) = Some dir ->
  named input b -> generate_one embed cwd dir input w code fs = Some (fs', l, src) ->
  fs' src = Some (code l) /\ obtains fs' src run_cwd l = Some w.
Proof.
  intros embed cwd run_cwd out_dir env dir input b w code fs fs' l src He Hd Hn H.
  apply (C81_absolute embed cwd run_cwd dir input b w code fs fs' l src Hn); [|exact H].
  cbn in Hd. injection Hd as <-. unfold push. destruct (absolute out_dir) eqn:E; [exact E|exact He].
Qed.
Print Assumptions C81_script.

(** ... and the source is in the directory under OUT_DIR from which the
    documentation says to include it. *)
Theorem C81_script_place : forall embed cwd out env input b w code fs fs' l src,
  absolute env = true ->
  match get_output_directory true (Some env) (Some (FPath false out)) with
  | Some dir => generate_one embed cwd dir input w code fs | None => None end = Some (fs', l, src) ->
  named input b ->
  src = resolve cwd (FPath true (comps env ++ out ++ [(b ++ ".rs")%string])).
Proof.
  intros embed cwd out env input b w code fs fs' l src He H Hn. cbn in H.
  destruct (generated _ _ _ _ _ _ _ _ _ _ _ Hn H) as (-> & _).
  unfold push. cbn [absolute comps]. rewrite He.
  change (FPath true (comps env ++ out ++ [(b ++ ".rs")%string])) with (FPath true (comps env ++ out ++ [(b ++ "." ++ "rs")%string])).
  rewrite app_assoc. symmetry. apply (resolve_file cwd true (comps env ++ out) b "rs" (proj1 Hn)).
Qed.
Print Assumptions C81_script_place.

(** From the command line the source is in the directory given, whether or not
    OUT_DIR happens to be set. *)
Theorem C81_cli_place : forall embed cwd dir env input b w code fs fs' l src,
  match get_output_directory false env (Some dir) with
  | Some d => generate_one embed cwd d input w code fs | None => None end = Some (fs', l, src) ->
  named input b ->
  src = resolve cwd (FPath (absolute dir) (comps dir ++ [(b ++ ".rs")%string])).
Proof.
  intros embed cwd dir env input b w code fs fs' l src H Hn. cbn in H.
  destruct (generated _ _ _ _ _ _ _ _ _ _ _ Hn H) as (-> & _).
  symmetry. destruct dir as [a d]. exact (resolve_file cwd a d b "rs" (proj1 Hn)).
Qed.
Print Assumptions C81_cli_place.

(** A program that reads its parameters from a relative output directory gets
    them when it runs where the generator ran.  The full statement, for any
    working directory, is false: [C81_moved_refuted]. *)
Theorem C81_relative_partial : forall cwd dir input b w code fs fs' l src,
  named input b -> generate_one false cwd dir input w code fs = Some (fs', l, src) ->
  obtains fs' src cwd l = Some w.
Proof.
  intros cwd dir input b w code fs fs' l src Hn H.
  destruct (generated _ _ _ _ _ _ _ _ _ _ _ Hn H) as (_ & -> & Hw & _). cbn [obtains].
  rewrite resolve_file by exact (proj1 Hn). destruct dir; exact Hw.
Qed.
Print Assumptions C81_relative_partial.

(** Run anywhere else, it looks at another file: for a relative directory
    without [..], it finds the file written exactly in the same working
    directory. *)
Theorem C81_moved_refuted : forall cwd run_cwd d input b w code fs fs' l src,
  named input b -> plain d -> generate_one false cwd (FPath false d) input w code fs = Some (fs', l, src) ->
  exists p, l = LoadFile p /\
    (resolve run_cwd p = cwd ++ in_dir d b "bpk" <-> run_cwd = cwd).
Proof.
  intros cwd run_cwd d input b w code fs fs' l src Hn Hp H.
  destruct (generated _ _ _ _ _ _ _ _ _ _ _ Hn H) as (_ & -> & _). cbn [absolute comps].
  eexists. split; [reflexivity|]. rewrite resolve_file, resolve_plain by (exact (proj1 Hn) || exact Hp).
  unfold in_dir. rewrite !app_assoc. split; [|intros ->; reflexivity].
  intros E. apply app_inj_tail in E. destruct E as [E _]. exact (app_inv_tail _ _ _ E).
Qed.
Print Assumptions C81_moved_refuted.

(** Included from a relative directory, the parameters are looked for in that
    directory below the source file, which is itself in it: they are found
    exactly when the output directory is the working directory.  So the
    generated source of `out_dir("src/model").embed_states(true).run_from_cli()`
    does not compile in an otherwise empty tree. *)
Theorem C81_embedded_refuted : forall cwd run_cwd d input b w code fs' l src,
  named input b -> plain d ->
  generate_one true cwd (FPath false d) input w code (fun _ => None) = Some (fs', l, src) ->
  (obtains fs' src run_cwd l = Some w <-> d = []).
Proof.
  intros cwd run_cwd d input b w code fs' l src Hn Hp H. pose proof (proj1 Hn) as Hb.
  destruct (generated _ _ _ _ _ _ _ _ _ _ _ Hn H) as (Hs & Hl & Hw & _). cbn [absolute comps] in Hl, Hs, Hw.
  rewrite resolve_plain in Hs, Hw by exact Hp.
  assert (E : included src (FPath false (in_dir d b "bpk")) = (cwd ++ d) ++ d ++ [(b ++ "." ++ "bpk")%string]).
  { unfold included. rewrite Hs, removelast_last, resolve_file, resolve_plain by (exact Hb || exact Hp). now rewrite <- app_assoc. }
  rewrite Hl. cbn [obtains]. rewrite E. split.
  - intros O. destruct d as [|c d]; [reflexivity|exfalso].
    assert (Z : fs' ((cwd ++ c :: d) ++ (c :: d) ++ [(b ++ "." ++ "bpk")%string]) = None).
    { unfold generate_one in H. rewrite (named_stem _ _ Hn), (join_named _ _ Hb) in H. unfold set_ext in H. cbn [absolute comps] in H.
      rewrite !(out_file _ _ _ Hb), (out_again _ _ "bpk" "bpk" Hb eq_refl) in H.
      unfold register in H. rewrite write_same in H. injection H as <- _ _.
      assert (Q : forall e, resolve cwd (FPath false (in_dir (c :: d) b e)) <> (cwd ++ c :: d) ++ (c :: d) ++ [(b ++ "." ++ "bpk")%string]).
      { intros e X. rewrite resolve_file, resolve_plain in X by (exact Hb || exact Hp).
        apply app_inv_head in X. apply (f_equal (@length _)) in X. cbn in X. rewrite app_length in X. cbn in X. lia. }
      rewrite !write_other by apply Q. reflexivity. }
    rewrite Z in O. discriminate O.
  - intros ->. rewrite app_nil_r in *. cbn [app]. rewrite Hw, Nat.eqb_refl. reflexivity.
Qed.
Print Assumptions C81_embedded_refuted.

(** Generation stops with a panic only for an input without a file name or when
    no output directory (or, in a build script, no OUT_DIR) is given. *)
Theorem C81_no_panic : forall script env out_dir embed cwd input b w code fs,
  named input b -> out_dir <> None -> (script = true -> env <> None) ->
  exists dir r, get_output_directory script env out_dir = Some dir /\ generate_one embed cwd dir input w code fs = Some r.
Proof.
  intros script env out_dir embed cwd input b w code fs Hn Ho He.
  assert (D : exists dir, get_output_directory script env out_dir = Some dir).
  { destruct out_dir as [d|]; [|contradiction]. destruct script; [|exists d; reflexivity].
    destruct env as [o|]; [exists (push o d); reflexivity|]. exfalso. exact (He eq_refl eq_refl). }
  destruct D as [dir Hd]. exists dir. unfold generate_one. rewrite (named_stem _ _ Hn).
  unfold register. destruct embed; [rewrite write_same|]; eexists; (split; [exact Hd|reflexivity]).
Qed.
Print Assumptions C81_no_panic.

(** ** Cases *)
Definition out_env := FPath true ["target"; "build"; "app-1"; "out"]%string.
Example C81_named : named ["models"; "resnet.onnx"]%string "resnet"%string.
Proof.
  split; [exists "resnet"%string; repeat split; auto; discriminate|].
  exists ["models"%string]. right. exists "onnx"%string. split; reflexivity.
Qed.
Example C81_case : exists fs' l src,
  match get_output_directory true (Some out_env) (Some (FPath false ["model"]%string)) with
  | Some dir => generate_one true ["home"; "me"]%string dir ["models"; "resnet.onnx"]%string [7; 8; 9]%N (fun _ => [1]%N) (fun _ => None)
  | None => None end = Some (fs', l, src) /\
  src = ["target"; "build"; "app-1"; "out"; "model"; "resnet.rs"]%string /\
  obtains fs' src [] l = Some [7; 8; 9]%N.
Proof. eexists _, _, _. repeat split. Qed.
(** From the command line into [src/model] with parameters included: lost. *)
Example C81_case_relative : exists fs' l src,
  generate_one true ["home"; "me"]%string (FPath false ["src"; "model"]%string) ["models"; "resnet.onnx"]%string [7; 8; 9]%N (fun _ => [1]%N) (fun _ => None)
    = Some (fs', l, src) /\ obtains fs' src ["home"; "me"]%string l = None.
Proof. eexists _, _, _. repeat split. Qed.
