(** DeformConv as ONNX defines it (for images with two spatial axes).  Nothing here mentions
    the generated code.  Numbers are any type with the operations named below; how a value
    between the pixels is found ([interp], of a picture and a place in it) and how a whole
    number becomes a number ([of_int]) are left open. *)
From Verif Require Export Conv_Spec.
Import Tensor_Spec.
Local Open Scope N_scope.

Section Op.
  Context {T : Type} (add mul : T -> T -> T) (zero : T) (of_int : Z -> T) (interp : (Z -> Z -> T) -> T -> T -> T).
  (** Channel [ch] of image [i]; zero outside. *)
  Definition picture (X : tensor T) (h w i ch : N) (y x : Z) : T :=
    if inside [h; w] [y; x] then elem zero X [i; ch; Z.to_N y; Z.to_N x] else zero.
  Definition masked (M : option (tensor T)) (idx : list N) (v : T) : T :=
    match M with Some m => mul v (elem zero m idx) | None => v end.

  (** Output channel [j] belongs to weight group [j / (M / group)] and sees that group's input
      channels.  Input channel [ch] belongs to offset group [ch / (C / offset_group)].  Element
      [(ky, kx)] of the kernel is moved by two channels of the offset: vertically by that with
      the index [2 * p], horizontally by the next, where [p] counts the offset groups and the
      elements of the kernel; channel [p] of the mask scales the value. *)
  Definition onnx_deform_conv (w : window) (group ogroup : N) (X W O : tensor T) (B M : option (tensor T)) : option (tensor T) :=
    match tshape X, tshape W with
    | [n; c; ih; iw], [m; cg; kh; kw] =>
        let (bs, es) := pads_of w [ih; iw] in
        match counts (fun _ _ _ _ _ _ => 0) false [kh; kw] (w_stride w) (w_dilation w) bs es [ih; iw] with
        | None => None
        | Some os =>
            tab (n :: m :: os) (fun idx => match idx with
              | [i; j; oy; ox] =>
                  Some (with_bias add zero B j (sum add zero (upto cg) (fun ch => sum add zero (indices [kh; kw]) (fun q =>
                    match q, positions (w_stride w) (w_dilation w) bs [oy; ox] q with
                    | [ky; kx], [y; x] =>
                        let src := j / (m / group) * cg + ch in
                        let p := (src / (c / ogroup) * kh + ky) * kw + kx in
                        let dy := elem zero O [i; 2 * p; oy; ox] in
                        let dx := elem zero O [i; 2 * p + 1; oy; ox] in
                        mul (masked M [i; p; oy; ox] (interp (picture X ih iw i src) (add (of_int y) dy) (add (of_int x) dx)))
                            (elem zero W [j; ch; ky; kx])
                    | _, _ => zero
                    end))))
              | _ => None
              end)
        end
    | _, _ => None
    end.

  (** What ONNX requires of the shapes. *)
  Definition deform_shapes (w : window) (group ogroup : N) (X W O : tensor T) (B M : option (tensor T)) : Prop :=
    exists n cg m ih iw kh kw,
      tshape X = [n; cg * group; ih; iw] /\ tshape W = [m; cg; kh; kw] /\ w_kernel w = [kh; kw] /\
      0 < group < 2 ^ 63 /\ m mod group = 0 /\ 0 < ogroup < 2 ^ 63 /\ (cg * group) mod ogroup = 0 /\
      twf O /\ bias_ok B m /\
      forall os, counts (fun _ _ _ _ _ _ => 0) false [kh; kw] (w_stride w) (w_dilation w) (fst (pads_of w [ih; iw])) (snd (pads_of w [ih; iw])) [ih; iw] = Some os ->
        tshape O = n :: 2 * (ogroup * kh * kw) :: os /\ forall t, M = Some t -> twf t /\ tshape t = n :: ogroup * kh * kw :: os.

  (** The inputs of the node: X, W, offset, and if given bias and mask.  An empty name stands
      for an input that is left out. *)
  Variable value : arg -> option (tensor T).
  Variable e : string -> option (tensor T).
  Definition left_out (a : option arg) : Prop := a = None \/ exists b, a = Some b /\ is_optional b = true.
  Definition given (a : option arg) (b : arg) : Prop := a = Some b /\ is_optional b = false.
  Definition deform_inputs (n : rnode) (X W O : tensor T) (B M : option (tensor T)) : Prop :=
    exists x wa o rest, ninputs n = x :: wa :: o :: rest /\
      e (aname x) = Some X /\ twf X /\ fits (aty x) (tshape X) /\
      constant_is value wa W /\ shape_known wa (tshape W) /\
      e (aname o) = Some O /\
      match B with
      | None => left_out (nth_error rest 0)
      | Some b => exists a, given (nth_error rest 0) a /\ constant_is value a b
      end /\
      match M with
      | None => left_out (nth_error rest 1)
      | Some t => exists a, given (nth_error rest 1) a /\ e (aname a) = Some t
      end.
End Op.
(** The attributes, with [pads] but no [auto_pad]. *)
Definition deform_attrs (n : rnode) (w : window) (group ogroup : N) : Prop :=
  kernel_attr 2 n (w_kernel w) /\ strides_attr 2 n (w_stride w) (w_dilation w) /\
  (exists b e, w_pad w = Pads b e /\ length b = 2%nat /\ length e = 2%nat /\ i64_nats b /\ i64_nats e /\ ints_attr n "pads" (repeat 0 4) (b ++ e)) /\
  int_attr n "group" 1 group /\ int_attr n "offset_group" 1 ogroup.
