(** C03, C04: property theorems only. *)
From Verif Require Import Util Sanitize_Model Sanitize_Spec Sanitize_Proofs.
Local Open Scope N_scope.

(** C03: every non-empty sanitised name is a legal identifier. *)
Theorem C03_legal_identifier : forall s,
  sanitize_name s <> [] -> legal_identifier (sanitize_name s).
Proof. exact (fun s H => snake_legal _ H (sanitize_snake s)). Qed.
Print Assumptions C03_legal_identifier.

(** C03: the complete description of the result in terms of words. *)
Theorem C03_words_joined : forall s, sanitize_name s = sanitized s.
Proof. exact sanitize_spec. Qed.
Print Assumptions C03_words_joined.

Theorem C03_snake_normal : forall s, snake_normal (sanitize_name s).
Proof. exact sanitize_snake. Qed.
Print Assumptions C03_snake_normal.

(** C03: exactly the snake-case names are left alone. *)
Theorem C03_unchanged_iff : forall s, sanitize_name s = s <-> snake_normal s.
Proof. exact sanitize_fixed_iff. Qed.
Print Assumptions C03_unchanged_iff.

Theorem C03_idempotent : forall s, sanitize_name (sanitize_name s) = sanitize_name s.
Proof. exact sanitize_idem. Qed.
Print Assumptions C03_idempotent.

Example C03_examples :
  sanitize_name (str "onnx__GlobalAveragePool_0") = str "onnx_global_average_pool_0" /\
  sanitize_name (str "123tensor") = str "_123tensor" /\
  sanitize_name (str "jax2tf/model/layer.weight") = str "jax2tf_model_layer_weight" /\
  sanitize_name (str "MyVariable") = str "my_variable" /\
  sanitize_name [8364; 97; 8364; 8364; 98] = str "a_b".
Proof. repeat split; reflexivity. Qed.

(** The Rust keywords that cannot be used as an identifier. *)
Definition rust_keywords : list (list N) := map str
  ["as"; "break"; "const"; "continue"; "crate"; "else"; "enum"; "extern"; "false"; "fn"; "for";
   "if"; "impl"; "in"; "let"; "loop"; "match"; "mod"; "move"; "mut"; "pub"; "ref"; "return";
   "self"; "Self"; "static"; "struct"; "super"; "trait"; "true"; "type"; "unsafe"; "use";
   "where"; "while"; "async"; "await"; "dyn"; "_"]%string.

(** Finding: a name may become a Rust keyword (or the lone underscore), which is
    no identifier; a graph input called "type" or "Type" is emitted as such. *)
Theorem C03_keyword_refuted :
  (exists s, s <> str "type" /\ In (sanitize_name s) rust_keywords) /\
  In (sanitize_name (str "type")) rust_keywords /\
  In (sanitize_name (str "::")) rust_keywords.
Proof.
  split; [exists (str "Type"); split; [vm_compute; discriminate|]|split];
    vm_compute; tauto.
Qed.
Print Assumptions C03_keyword_refuted.

(** C04: exactly which names become the empty name. *)
Theorem C04_empty_iff : forall s,
  sanitize_name s = [] <-> s = [] \/ exists c, s = [c] /\ alnumb c = false /\ c <> underscore.
Proof. exact sanitize_empty_iff. Qed.
Print Assumptions C04_empty_iff.

(** Finding: a non-empty name becomes the empty name, i.e. "input absent". *)
Theorem C04_nonempty_refuted : exists s, s <> [] /\ sanitize_name s = [].
Proof. exists (str ":"). split; [discriminate|reflexivity]. Qed.
Print Assumptions C04_nonempty_refuted.

(** Finding: different names collide. *)
Theorem C04_injective_refuted :
  exists s t, s <> t /\ sanitize_name s = sanitize_name t /\ sanitize_name s <> [].
Proof.
  exists (str "a:0"), (str "A_0"). repeat split; vm_compute; discriminate.
Qed.
Print Assumptions C04_injective_refuted.

(** C04, part that holds: names already in snake case stay distinct.  Missing:
    names outside this class may collide, see above. *)
Theorem C04_injective_partial : forall s t,
  snake_normal s -> snake_normal t -> sanitize_name s = sanitize_name t -> s = t.
Proof.
  exact (fun s t Hs Ht E =>
    eq_trans (eq_sym (sanitize_id s Hs)) (eq_trans E (sanitize_id t Ht))).
Qed.
Print Assumptions C04_injective_partial.

Example C04_injective_example :
  snake_normal (str "layer_1_weight") /\ snake_normal (str "layer_2_weight").
Proof. split; apply sanitize_fixed_iff; reflexivity. Qed.
