(** C43: the files written for several models. *)
From Verif Require Import Util Files_Spec Files_Model Files_Proofs.
Open Scope string_scope.
Open Scope list_scope.
Open Scope N_scope.

(** If every model file is called [base.ext], or [base], where [base] has no dot
    except perhaps as its first character, the base names are distinct and no model file is where an output goes, then after the run the
    source and weights file of every model (and its debug file, in development
    mode) hold what was generated from that model, and no other file changed.
    Missing: names with more dots and equal base names (refuted below). *)
Theorem C43_outputs_partial : forall bytes generate dump dev dir inputs bases (f f' : files bytes),
  Forall2 named inputs bases -> NoDup bases ->
  (forall i b ext, In i inputs -> In b bases -> In ext ["rs"; "bpk"; "onnx.txt"] -> i <> in_dir dir b ext) ->
  run bytes generate dump dev dir inputs f = Some f' ->
  (forall k i b, nth_error inputs k = Some i -> nth_error bases k = Some b ->
     exists content code weights, f i = Some content /\ generate i (in_dir dir b "bpk") content = Some (code, weights) /\
       f' (in_dir dir b "rs") = Some code /\ f' (in_dir dir b "bpk") = Some weights /\
       (dev = true -> f' (in_dir dir b "onnx.txt") = Some (dump content))) /\
  (forall p, (forall b ext, In b bases -> In ext ["rs"; "bpk"; "onnx.txt"] -> p <> in_dir dir b ext) -> f' p = f p).
Proof.
  intros bytes generate dump dev dir inputs bases f f' H N A E.
  assert (A' : forall p, (forall b ext, In b bases -> In ext ["rs"; "bpk"; "onnx.txt"] -> p <> in_dir dir b ext) -> forall b, In b bases -> ~ out_of dev dir b p).
  { intros p Hp b Hb [X|[X|[_ X]]]; apply (Hp b _ Hb) in X; cbn; auto. }
  destruct (run_ok bytes generate dump dev dir inputs bases f f' H N) as (P & O); [|exact E|].
  - intros i b Hi Hb. apply A'; [|exact Hb]. intros b' ext Hb' He. apply A; assumption.
  - split; [exact P|]. intros p Hp. apply O. apply A'. exact Hp.
Qed.
Print Assumptions C43_outputs_partial.

(** And the run succeeds if every model can be read and converted. *)
Theorem C43_succeeds_partial : forall bytes generate dump dev dir inputs bases (f : files bytes),
  Forall2 named inputs bases -> NoDup bases ->
  (forall i b ext, In i inputs -> In b bases -> In ext ["rs"; "bpk"; "onnx.txt"] -> i <> in_dir dir b ext) ->
  (forall k i b, nth_error inputs k = Some i -> nth_error bases k = Some b ->
     exists content r, f i = Some content /\ generate i (in_dir dir b "bpk") content = Some r) ->
  exists f', run bytes generate dump dev dir inputs f = Some f'.
Proof.
  intros bytes generate dump dev dir inputs bases f H N A G. apply (run_total bytes generate dump dev dir inputs bases f H N); [|exact G].
  intros i b Hi Hb [X|[X|[_ X]]]; eapply (A i b _ Hi Hb); try exact X; cbn; auto.
Qed.
Print Assumptions C43_succeeds_partial.

(** ** Examples *)
Definition gen_ (i b : path) (c : N) : option (N * N) := Some (2 * c, 2 * c + 1).
Definition two : list path := [["models"; "a.onnx"]; ["models"; "b.onnx"]].
Definition store (p : path) : option N := if path_dec p ["models"; "a.onnx"] then Some 10 else if path_dec p ["models"; "b.onnx"] then Some 20
  else if path_dec p ["other"; "a.onnx"] then Some 30 else if path_dec p ["models"; "a.v2.onnx"] then Some 40 else None.
Example two_named : Forall2 named two ["a"; "b"].
Proof.
  assert (B : forall b, In b ["a"; "b"] -> named ["models"; (b ++ ".onnx")%string] b).
  { intros b Hb. split; [exists b; split; [left; reflexivity|]|exists ["models"]; right; exists "onnx"; split; reflexivity].
    destruct Hb as [<-|[<-|[]]]; split; discriminate || reflexivity. }
  constructor; [apply (B "a"); cbn; auto|]. constructor; [apply (B "b"); cbn; auto|constructor].
Qed.
(** A hidden file, and a file without an extension, keep their names. *)
Example hidden_named : Forall2 named [["models"; ".net"]; ["models"; "net"]] [".net"; "net"].
Proof.
  constructor; [|constructor; [|constructor]].
  - split; [exists "net"; split; [right; reflexivity|split; [discriminate|reflexivity]]|exists ["models"]; left; reflexivity].
  - split; [exists "net"; split; [left; reflexivity|split; [discriminate|reflexivity]]|exists ["models"]; left; reflexivity].
Qed.
Example two_apart : forall i b ext, In i two -> In b ["a"; "b"] -> In ext ["rs"; "bpk"; "onnx.txt"] -> i <> in_dir ["out"] b ext.
Proof. intros i b ext [<-|[<-|[]]] [<-|[<-|[]]] [<-|[<-|[<-|[]]]]; discriminate. Qed.
Definition result (inputs : list path) : option (option N * option N * option N) :=
  match run N gen_ (fun c => c) false ["out"] inputs store with
  | Some f => Some (f ["out"; "a.rs"], f ["out"; "a.bpk"], f ["out"; "b.rs"])
  | None => None
  end.
Example two_result : result two = Some (Some 20, Some 21, Some 40).
Proof. vm_compute. reflexivity. Qed.

(** ** Refutations *)
(** Same base name in two directories, and names that differ only between
    dots: the files of the first model are overwritten. *)
Definition overwritten (inputs : list path) : Prop :=
  NoDup inputs /\ exists f' i1 i2 p, In i1 inputs /\ In i2 inputs /\
    run N gen_ (fun c => c) false ["out"] inputs store = Some f' /\
    file_stem i1 = Some p /\ f' (with_extension (join ["out"] p) "rs") = option_map (fun c => 2 * c) (store i2) /\ store i1 <> store i2.
Theorem C43_same_stem_refuted : overwritten [["models"; "a.onnx"]; ["other"; "a.onnx"]].
Proof.
  split; [repeat constructor; cbn; intuition discriminate|].
  destruct (run N gen_ (fun c => c) false ["out"] [["models"; "a.onnx"]; ["other"; "a.onnx"]] store) as [f'|] eqn:E; [|vm_compute in E; discriminate].
  exists f', ["models"; "a.onnx"], ["other"; "a.onnx"], "a". repeat split; cbn; auto.
  - cbn in E. injection E as <-. vm_compute. reflexivity.
  - vm_compute. discriminate.
Qed.
Print Assumptions C43_same_stem_refuted.
Theorem C43_dots_refuted : overwritten [["models"; "a.onnx"]; ["models"; "a.v2.onnx"]] /\
  file_stem ["models"; "a.onnx"] <> file_stem ["models"; "a.v2.onnx"].
Proof.
  split; [|vm_compute; discriminate]. split; [repeat constructor; cbn; intuition discriminate|].
  destruct (run N gen_ (fun c => c) false ["out"] [["models"; "a.onnx"]; ["models"; "a.v2.onnx"]] store) as [f'|] eqn:E; [|vm_compute in E; discriminate].
  exists f', ["models"; "a.onnx"], ["models"; "a.v2.onnx"], "a". repeat split; cbn; auto.
  - cbn in E. injection E as <-. vm_compute. reflexivity.
  - vm_compute. discriminate.
Qed.
Print Assumptions C43_dots_refuted.
