(** C01, C02: property theorems only. *)
From Verif Require Import Util TopSort_Model TopSort_Spec TopSort_Proofs.

(** C01: acceptance is exactly the absence of a backward reference. *)
Theorem C01_accept_iff_no_backward_reference : forall ns,
  is_top_sorted ns = true <-> ~ backward_reference ns.
Proof. exact is_top_sorted_iff. Qed.
Print Assumptions C01_accept_iff_no_backward_reference.

(** C01: an accepted graph without self references runs front to back. *)
Theorem C01_accepted_is_executable : forall ns avail,
  is_top_sorted ns = true -> ~ self_reference ns -> closed_over avail ns ->
  executable avail ns.
Proof. exact sorted_executable. Qed.
Print Assumptions C01_accepted_is_executable.

(** C01: a rejected single-assignment graph indeed cannot run in list order. *)
Theorem C01_rejected_is_not_executable : forall ns avail,
  is_top_sorted ns = false ->
  (forall i j p q name, nth_error ns i = Some p -> nth_error ns j = Some q ->
     In name (nio_out p) -> In name (nio_out q) -> name <> ""%string -> i = j) ->
  (forall p name, In p ns -> In name (nio_out p) -> name <> ""%string -> ~ In name avail) ->
  ~ executable avail ns.
Proof. exact not_sorted_not_executable. Qed.
Print Assumptions C01_rejected_is_not_executable.

Definition diamond : list node_io :=
  [ {| nio_in := ["x"]; nio_out := ["a"; ""] |};
    {| nio_in := ["a"; ""]; nio_out := ["b"] |};
    {| nio_in := ["a"; "b"]; nio_out := ["c"] |} ]%string.

(** The hypotheses of [C01_accepted_is_executable] are met by a diamond. *)
Example C01_accepted_example :
  is_top_sorted diamond = true /\ ~ self_reference diamond /\ closed_over ["x"%string] diamond.
Proof.
  split; [reflexivity|]. split.
  - intros (n & name & Hn & Hne & Ho & Hi).
    cbn in Hn. destruct Hn as [<-|[<-|[<-|[]]]]; cbn in Ho, Hi; intuition congruence.
  - intros n name Hn Hi Hne. cbn in Hn.
    destruct Hn as [<-|[<-|[<-|[]]]]; cbn in Hi.
    + destruct Hi as [<-|[]]. left. left. reflexivity.
    + destruct Hi as [<-|[<-|[]]]; [|congruence]. right. eexists. split; [left; reflexivity|left; reflexivity].
    + destruct Hi as [<-|[<-|[]]]; right.
      * eexists. split; [left; reflexivity|left; reflexivity].
      * eexists. split; [right; left; reflexivity|left; reflexivity].
Qed.

(** The hypotheses of [C01_rejected_is_not_executable] are met by the reversed diamond. *)
Example C01_rejected_example : is_top_sorted (rev diamond) = false.
Proof. reflexivity. Qed.

(** Finding: a node consuming its own output is accepted although no
    execution order exists for it. *)
Theorem C01_self_reference_accepted_refuted :
  exists ns, is_top_sorted ns = true /\ closed_over [] ns /\ ~ executable [] ns.
Proof.
  exists [ {| nio_in := ["a"%string]; nio_out := ["a"%string] |} ]. split; [reflexivity|]. split.
  - intros n name [<-|[]] Hi _. right. eexists. split; [left; reflexivity|]. exact Hi.
  - intros H. inversion H as [|avail n ns Hin Hex]; subst.
    apply (Hin "a"%string); [left; reflexivity|discriminate].
Qed.
Print Assumptions C01_self_reference_accepted_refuted.

(** C02: the selected opset is the version of the first default-domain import. *)
Theorem C02_first_default_domain : forall l v0 before after,
  l = before ++ (""%string, v0) :: after ->
  (forall d w, In (d, w) before -> d <> ""%string) ->
  (0 <= v0 < 2 ^ 63)%Z ->
  extract_opset_version l = Some v0.
Proof. exact extract_opset_first. Qed.
Print Assumptions C02_first_default_domain.

(** C02: a version is selected only from a default-domain entry. *)
Theorem C02_only_default_domain : forall l v,
  extract_opset_version l = Some v ->
  exists v0, In (""%string, v0) l /\ v = (v0 mod 2 ^ 64)%Z.
Proof. exact extract_opset_only. Qed.
Print Assumptions C02_only_default_domain.

(** C02: failure exactly if there is no default-domain entry. *)
Theorem C02_missing_iff : forall l,
  extract_opset_version l = None <-> forall d w, In (d, w) l -> d <> ""%string.
Proof. exact extract_opset_none. Qed.
Print Assumptions C02_missing_iff.

Example C02_example :
  extract_opset_version [("ai.onnx.ml", 3%Z); ("", 17%Z); ("", 9%Z); ("com.microsoft", 1%Z)]%string = Some 17%Z.
Proof. reflexivity. Qed.

(** Finding: a negative version is not refused; it becomes a huge opset that
    satisfies every minimum-opset check. *)
Theorem C02_negative_version_refuted :
  exists l v, extract_opset_version l = Some v /\ (forall w, In (""%string, w) l -> (w < 0)%Z) /\ (v > 2 ^ 62)%Z.
Proof.
  exists [(""%string, (-1)%Z)], 18446744073709551615%Z. repeat split.
  intros w [H|[]]. inversion H. lia.
Qed.
Print Assumptions C02_negative_version_refuted.
