(** What ONNX prescribes for Resize (opset 11 and later) on the axes after the first two,
    over the reals.  Nothing here mentions the generated code. *)
From Coq Require Export Reals.
From Verif Require Export Attention_Spec Pick_Spec.
Import Tensor_Spec.
Local Open Scope N_scope.

Inductive rmode := Nearest | Linear | Cubic.
(** The options: the mode, [coordinate_transformation_mode], [nearest_mode] and
    [cubic_coeff_a]. *)
Record request := mkReq { q_mode : rmode; q_coord : string; q_round : string; q_a : R }.
(** One axis: its size, the size wanted and the scale. *)
Record axis := mkAx { a_in : N; a_out : N; a_scale : R }.
Definition r_of (n : N) : R := IZR (Z.of_N n).
Definition rfloor (x : R) : Z := Int_part x.
Definition rceil (x : R) : Z := (- Int_part (- x))%Z.

(** ** Where a point of the result lies in the input *)
Definition half_pixel (a : axis) (x : N) : R := ((r_of x + /2) / a_scale a - /2)%R.
Definition original (q : request) (a : axis) (x : N) : R :=
  if String.eqb (q_coord q) "half_pixel" then half_pixel a x
  else if String.eqb (q_coord q) "pytorch_half_pixel" then (if a_out a =? 1 then 0%R else half_pixel a x)
  else if String.eqb (q_coord q) "align_corners" then (if a_out a =? 1 then 0%R else (r_of x * (r_of (a_in a) - 1) / (r_of (a_out a) - 1))%R)
  else (* asymmetric *) (r_of x / a_scale a)%R.
Definition rounded (q : request) (c : R) : Z :=
  if String.eqb (q_round q) "round_prefer_floor" then rceil (c - /2)
  else if String.eqb (q_round q) "round_prefer_ceil" then rfloor (c + /2)
  else if String.eqb (q_round q) "floor" then rfloor c
  else rceil c.
(** Points outside are those at the border. *)
Definition inside (l : N) (p : Z) : N := Z.to_N (Z.max 0 (Z.min p (Z.of_N l - 1))).
(** The points that make up a value, each with its weight. *)
Definition cubic_weights (a r : R) : list R :=
  [((a * (r + 1) - 5 * a) * (r + 1) + 8 * a) * (r + 1) - 4 * a;
   ((a + 2) * r - (a + 3)) * r * r + 1;
   ((a + 2) * (1 - r) - (a + 3)) * (1 - r) * (1 - r) + 1;
   ((a * (2 - r) - 5 * a) * (2 - r) + 8 * a) * (2 - r) - 4 * a]%R.
Definition taps (q : request) (a : axis) (x : N) : list (R * N) :=
  let c := original q a x in
  let f := rfloor c in
  let r := (c - IZR f)%R in
  match q_mode q with
  | Nearest => [(1%R, inside (a_in a) (rounded q c))]
  | Linear => [((1 - r)%R, inside (a_in a) f); (r, inside (a_in a) (f + 1))]
  | Cubic => combine (cubic_weights (q_a q) r) (map (fun k => inside (a_in a) (f + k)) [-1; 0; 1; 2]%Z)
  end.
Definition weigh (l : list (R * N)) (f : N -> R) : R := fold_right (fun wp acc => fst wp * f (snd wp) + acc)%R 0%R l.
(** Axis by axis. *)
Fixpoint blend (tp : list (N -> list (R * N))) (pos : list N) (f : list N -> R) : R :=
  match tp, pos with
  | t :: tp, x :: pos => weigh (t x) (fun i => blend tp pos (fun r => f (i :: r)))
  | _, _ => f []
  end.
Definition onnx_resize (q : request) (axes : list axis) (x : rt) : rt :=
  match tshape x with
  | b :: c :: _ => mk (b :: c :: map a_out axes) (fun idx => match idx with i :: j :: pos => blend (map (taps q) axes) pos (fun r => rd x (i :: j :: r)) | _ => 0%R end)
  | _ => x
  end.

(** ** What is asked for *)
Inductive want := BySizes (l : list N) | ByScales (l : list R).
Definition axis_of_size (l o : N) : axis := mkAx l o (r_of o / r_of l).
Definition axis_of_scale (l : N) (s : R) : axis := mkAx l (Z.to_N (rfloor (r_of l * s))) s.
(** Images and channels are kept. *)
Definition asks (w : want) (s : list N) (axes : list axis) : Prop :=
  exists b c sp, s = b :: c :: sp /\
    match w with
    | BySizes l => exists o, l = b :: c :: o /\ length o = length sp /\ Forall (fun d => d < 2 ^ 63) l /\ axes = map (fun lo => axis_of_size (fst lo) (snd lo)) (combine sp o)
    | ByScales l => exists o, l = 1%R :: 1%R :: o /\ length o = length sp /\ axes = map (fun ls => axis_of_scale (fst ls) (snd ls)) (combine sp o)
    end.

(** ** Nodes *)
Definition mode_name (m : rmode) : string := match m with Nearest => "nearest" | Linear => "linear" | Cubic => "cubic" end.
Definition string_of (n : rnode) (key dflt : string) : option string :=
  match get_attr n key with None => Some dflt | Some (AString s) => Some s | Some _ => None end.
Definition keeps (n : rnode) (key : string) (ok : attr -> Prop) : Prop := match get_attr n key with None => True | Some a => ok a end.
Definition zero_float (w : N) : bool := (w =? 0) || (w =? 2147483648).
Definition resize_options (n : rnode) (q : request) : Prop :=
  get_attr n "mode" = Some (AString (mode_name (q_mode q))) /\
  string_of n "coordinate_transformation_mode" "half_pixel" = Some (q_coord q) /\
  string_of n "nearest_mode" "round_prefer_floor" = Some (q_round q) /\
  match get_attr n "cubic_coeff_a" with None => q_a q = (-3 / 4)%R | Some (AFloat w) => q_a q = f32_real w | Some _ => False end /\
  get_attr n "axes" = None /\
  keeps n "antialias" (fun a => a = AInt 0%Z) /\ keeps n "exclude_outside" (fun a => a = AInt 0%Z) /\
  keeps n "extrapolation_value" (fun a => exists w, a = AFloat w /\ zero_float w = true) /\
  keeps n "keep_aspect_ratio_policy" (fun a => a = AString "stretch").
(** How sizes or scales are given: with the model, or at run time as a tensor or a shape. *)
Inductive rval := VFloats (l : list R) | VInts (l : list Z) | VShape (l : list Z).
Definition carries (w : want) (v : rval) : Prop :=
  match w, v with
  | ByScales l, VFloats m => m = l
  | ByScales l, VShape m => l = map IZR m
  | BySizes l, VInts m | BySizes l, VShape m => m = map Z.of_N l
  | _, _ => False
  end.
Definition fixed (w : want) : cval := match w with BySizes l => CI64 (map Z.of_N l) | ByScales l => CF l end.
Definition given_as (value : arg -> option cval) (w : want) (a : arg) (dyn : option rval) : Prop :=
  asrc a <> VOptional /\
  match dyn with
  | None => (exists t, aty a = TensorT t) /\ value a = Some (fixed w)
  | Some v => value a = None /\ carries w v /\ match v with VShape _ => exists k, aty a = ShapeT k | _ => exists t, aty a = TensorT t end
  end.
Definition left_out (value : arg -> option cval) (a : arg) : Prop := asrc a = VOptional \/ exists t, aty a = TensorT t /\ value a = Some (CF []).
Definition resize_node (value : arg -> option cval) (n : rnode) (t : tensor_type) (w : want) (dyn : option rval) : Prop :=
  exists x roi rest, ninputs n = x :: roi :: rest /\ aty x = TensorT t /\ (value roi = None \/ value roi = Some (CF [])) /\
    match w with
    | ByScales _ => exists a more, rest = a :: more /\ given_as value w a dyn /\ (more = [] \/ exists b, more = [b] /\ asrc b = VOptional)
    | BySizes _ => exists e a, rest = [e; a] /\ left_out value e /\ given_as value w a dyn
    end.

(** ** The cases claimed *)
(** The points lie between those of the input: [half_pixel], the same of PyTorch for more
    than one point, or [align_corners]. *)
Definition spread (q : request) (a : axis) : Prop :=
  q_coord q = "half_pixel"%string \/ (q_coord q = "pytorch_half_pixel"%string /\ a_out a <> 1) \/ q_coord q = "align_corners"%string.
(** The scale is the ratio of the sizes, and for [Nearest] points are those of [asymmetric] and
    [floor], or the default for whole factors.  [Cubic] has the default coefficient. *)
Definition supported (q : request) (a : axis) : Prop :=
  0 < a_in a /\ 0 < a_out a /\ a_scale a = (r_of (a_out a) / r_of (a_in a))%R /\
  match q_mode q with
  | Nearest =>
      (q_coord q = "asymmetric"%string /\ q_round q = "floor"%string) \/
      (q_coord q = "half_pixel"%string /\ (q_round q = "round_prefer_floor"%string \/ q_round q = "round_prefer_ceil"%string) /\ exists k, a_out a = k * a_in a)
  | Linear => spread q a
  | Cubic => spread q a /\ q_a q = (-3 / 4)%R
  end.
