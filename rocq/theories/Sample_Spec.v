(** RandomNormal, RandomUniform, their forms with the shape of another tensor, Bernoulli and
    GridSample as ONNX defines them.  Nothing here mentions the generated code.  Numbers are
    any type; the numbers drawn at random come from a source: [source d i] is the [i]th number
    drawn from the distribution [d]. *)
From Verif Require Export Tensor_Spec IR_Model Shapes_Spec.
Import Tensor_Spec.
Local Open Scope N_scope.

Inductive dist (T : Type) := Normal (mean sd : T) | Uniform (low high : T).
Arguments Normal {T}. Arguments Uniform {T}.
(** Elements with their type. *)
Definition typed (T : Type) := (dtype * tensor T)%type.
(** The codes of the element types in a model. *)
Definition code_of (d : dtype) : Z :=
  match d with F32 => 1 | U8 => 2 | I8 => 3 | U16 => 4 | I16 => 5 | I32 => 6 | I64 => 7 | BoolT => 9 | F16 => 10 | F64 => 11 | U32 => 12 | U64 => 13 | BF16 => 16 end%Z.
(** An attribute that may be left out. *)
Definition type_attr (n : rnode) (default d : dtype) : Prop :=
  match get_attr n "dtype" with None => d = default | Some (AInt z) => z = code_of d | Some _ => False end.

Section Random.
  Context {T : Type} (num : N -> T) (zero one : T) (source : dist T -> N -> T) (less : T -> T -> bool).
  Definition number_attr (n : rnode) (key : string) (default v : T) : Prop :=
    match get_attr n key with None => v = default | Some (AFloat b) => v = num b | Some _ => False end.
  (** The distribution the attributes ask for. *)
  Definition normal_attrs (n : rnode) (d : dist T) : Prop := exists mean sd, d = Normal mean sd /\ number_attr n "mean" zero mean /\ number_attr n "scale" one sd.
  Definition uniform_attrs (n : rnode) (d : dist T) : Prop := exists low high, d = Uniform low high /\ number_attr n "low" zero low /\ number_attr n "high" one high.

  (** A tensor of independent draws. *)
  Definition onnx_random (d : dist T) (ty : dtype) (s : list N) : typed T := (ty, mkT s (map (source d) (upto (prodN s)))).
  (** Bernoulli: element [i] is true with the probability that is element [i] of the input,
      which is the probability that a number drawn uniformly from [0, 1) is below it. *)
  Fixpoint bern (ps : list T) (i : N) : list bool :=
    match ps with [] => [] | p :: ps => less (source (Uniform zero one) i) p :: bern ps (i + 1) end.
  Definition onnx_bernoulli (ty : dtype) (P : tensor T) : typed bool := (ty, mkT (tshape P) (bern (tdata P) 0)).
End Random.

(** GridSample. *)
Inductive gmode := GLinear | GNearest | GCubic.
Inductive gpad := GZeros | GBorder | GReflection.
(** Opset 16 calls two of the modes bilinear and bicubic, opset 20 linear and cubic. *)
Definition mode_attr (n : rnode) (m : gmode) : Prop :=
  match get_attr n "mode" with
  | None => m = GLinear
  | Some (AString s) => In (s, m) [("linear", GLinear); ("bilinear", GLinear); ("nearest", GNearest); ("cubic", GCubic); ("bicubic", GCubic)]%string
  | Some _ => False
  end.
Definition padding_mode_attr (n : rnode) (p : gpad) : Prop :=
  match get_attr n "padding_mode" with
  | None => p = GZeros
  | Some (AString s) => In (s, p) [("zeros", GZeros); ("border", GBorder); ("reflection", GReflection)]%string
  | Some _ => False
  end.
Definition align_attr (n : rnode) (b : bool) : Prop :=
  match get_attr n "align_corners" with None => b = false | Some (AInt z) => (z = 0%Z /\ b = false) \/ (z = 1%Z /\ b = true) | Some _ => False end.
Section Grid.
  (** How a picture of a height and a width is read at a place given by its horizontal and
      vertical coordinate, both between -1 and 1. *)
  Context {T : Type} (sampler : gmode -> gpad -> bool -> N -> N -> (N -> N -> option T) -> T -> T -> option T).
  (** The grid holds for each image and each output position the horizontal and the vertical
      coordinate. *)
  Definition onnx_grid_sample (m : gmode) (p : gpad) (align : bool) (X G : tensor T) : option (tensor T) :=
    match tshape X, tshape G with
    | [n; c; h; w], [n'; oh; ow; two] =>
        if (n =? n') && (two =? 2) then
          tab [n; c; oh; ow] (fun idx => match idx with
            | [i; ch; oy; ox] =>
                match get G [i; oy; ox; 0], get G [i; oy; ox; 1] with
                | Some gx, Some gy => sampler m p align h w (fun y x => get X [i; ch; y; x]) gx gy
                | _, _ => None
                end
            | _ => None end)
        else None
    | _, _ => None
    end.
End Grid.
Definition output_name_is (n : rnode) (s : string) : Prop := exists o r, noutputs n = o :: r /\ aname o = s.
