(** BatchNormalization, LayerNormalization, GroupNormalization and InstanceNormalization as
    ONNX defines them.  Nothing here mentions the generated code.  Numbers are any type with
    the operations named below; [over v n] divides by a count. *)
From Verif Require Export Conv_Spec.
Import Conv_Spec Tensor_Spec.
Local Open Scope N_scope.

Section Norm.
  Context {T : Type} (add sub mul div : T -> T -> T) (sqrt : T -> T) (zero : T) (over : T -> N -> T).
  (** Of the numbers [f i], for [i] in the list. *)
  Definition mean {A} (l : list A) (f : A -> T) : T := over (sum add zero l f) (N.of_nat (length l)).
  Definition variance {A} (l : list A) (f : A -> T) : T := mean l (fun i => mul (sub (f i) (mean l f)) (sub (f i) (mean l f))).
  Definition normal (eps x m v : T) : T := div (sub x m) (sqrt (add v eps)).

  (** BatchNormalization: scale, bias, mean and variance of each channel are given. *)
  Definition onnx_batch_norm (eps : T) (X S B M V : tensor T) : option (tensor T) :=
    match tshape X with
    | _ :: _ :: _ => tab (tshape X) (fun idx => match idx with
        | i :: j :: p => Some (add (mul (normal eps (elem zero X idx) (elem zero M [j]) (elem zero V [j])) (elem zero S [j])) (elem zero B [j]))
        | _ => None end)
    | _ => None
    end.
  (** With [training_mode] they are those of the batch. *)
  Definition onnx_batch_norm_training (eps : T) (X S B : tensor T) : option (tensor T) :=
    match tshape X with
    | n :: _ :: ds => tab (tshape X) (fun idx => match idx with
        | i :: j :: p =>
            let l := indices (n :: ds) in
            let f q := match q with i :: p => elem zero X (i :: j :: p) | [] => zero end in
            Some (add (mul (normal eps (elem zero X idx) (mean l f) (variance l f)) (elem zero S [j])) (elem zero B [j]))
        | _ => None end)
    | _ => None
    end.
  (** LayerNormalization over the axes from [a] on; scale and bias are broadcast to them. *)
  Definition onnx_layer_norm (a : nat) (eps : T) (X S : tensor T) (B : option (tensor T)) : option (tensor T) :=
    tab (tshape X) (fun idx =>
      let l := indices (skipn a (tshape X)) in
      let f q := elem zero X (firstn a idx ++ q) in
      let y := mul (normal eps (elem zero X idx) (mean l f) (variance l f)) (elem zero S (bproj (tshape S) (skipn a idx))) in
      Some (match B with Some b => add y (elem zero b (bproj (tshape b) (skipn a idx))) | None => y end)).
  (** GroupNormalization (version 21: one scale and one bias for each channel). *)
  Definition onnx_group_norm (groups : N) (eps : T) (X S B : tensor T) : option (tensor T) :=
    match tshape X with
    | _ :: c :: ds => tab (tshape X) (fun idx => match idx with
        | i :: j :: p =>
            let cg := c / groups in
            let l := indices (cg :: ds) in
            let f q := match q with ch :: p => elem zero X (i :: j / cg * cg + ch :: p) | [] => zero end in
            Some (add (mul (normal eps (elem zero X idx) (mean l f) (variance l f)) (elem zero S [j])) (elem zero B [j]))
        | _ => None end)
    | _ => None
    end.
  (** InstanceNormalization. *)
  Definition onnx_instance_norm (eps : T) (X S B : tensor T) : option (tensor T) :=
    match tshape X with
    | _ :: _ :: ds => tab (tshape X) (fun idx => match idx with
        | i :: j :: p =>
            let l := indices ds in
            let f q := elem zero X (i :: j :: q) in
            Some (add (mul (normal eps (elem zero X idx) (mean l f) (variance l f)) (elem zero S [j])) (elem zero B [j]))
        | _ => None end)
    | _ => None
    end.
End Norm.

(** An attribute that is a float32, given by its bits; the default of [epsilon] is 1e-5. *)
Definition f32_attr (n : rnode) (key : string) (default bits : N) : Prop :=
  match get_attr n key with None => bits = default | Some (AFloat b) => bits = b | Some _ => False end.
Definition epsilon_bits : N := 0x3727C5AC.
(** A vector with an element for each of the [c] channels. *)
Definition per_channel {T} (c : N) (t : tensor T) : Prop := twf t /\ tshape t = [c].
(** The inputs after the first are these vectors, all with an element for each channel. *)
Section Parameters.
  Context {T : Type} (value : arg -> option (tensor T)) (e : string -> option (tensor T)).
  (** .. constants of the model, where the type of the first says how many channels *)
  Definition constants_are (n : rnode) (c : N) (ps : list (tensor T)) : Prop :=
    exists x args, ninputs n = x :: args /\ Forall2 (fun a t => constant_is value a t /\ per_channel c t) args ps /\
      forall a r, args = a :: r -> shape_known a [c].
  (** .. computed by the graph, at least one of them *)
  Definition computed_are (n : rnode) (c : N) (ps : list (tensor T)) : Prop :=
    exists x args, ninputs n = x :: args /\ Forall2 (fun a t => e (aname a) = Some t /\ per_channel c t) args ps /\
      exists a, In a args /\ value a = None.
End Parameters.
Definition with_channels {T} (X : tensor T) (c : N) : Prop := exists nb ds, tshape X = nb :: c :: ds.
