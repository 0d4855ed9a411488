(** Model of the numbers in generated code: crates/burn-onnx/src/burn/codegen.rs:11-165,
    burn/node/pad.rs:35 and the quoting of numbers.  Rust's two notations of
    finite numbers ([{:?}] and [{}]) are one here. *)
From Verif Require Import IR_Model Iface_Spec Lit_Spec.
Local Open Scope string_scope.
Local Open Scope list_scope.

(** Tokens of a text with a sign: the parser makes the sign a token of its
    own. *)
Definition signed (neg : bool) (t : string) : list token := if neg then ["-"; t] else [t].

(** codegen.rs:11-15 [convert_primitive] for integers (usize, i64: 51-63). *)
Definition int_tokens (z : Z) : list token := signed (z <? 0)%Z (dec (Z.abs_N z)).

(** codegen.rs:17-47 [convert_to_array]. *)
Definition array_tokens (l : list Z) : list token := ["["] ++ flat_map (fun z => int_tokens z ++ [","]) l ++ ["]"].

(** codegen.rs:11-15 [convert_primitive] for floats (f64, f32: 65-77): the text
    of [{:?}]. *)
Definition primitive_tokens (f : rfloat) : list token :=
  match f with
  | RNaN => ["NaN"]
  | RInf neg => signed neg "inf"
  | RFin neg m => signed neg m
  end.

Definition suffix (t : fty) : string := match t with T32 => "f32" | T64 => "f64" end.

(** codegen.rs:81-92 [f32_to_tokens] and 96-107 [f64_to_tokens]. *)
Definition float_tokens (t : fty) (f : rfloat) : list token :=
  match f with
  | RNaN => [suffix t; "::"; "NAN"]
  | RInf false => [suffix t; "::"; "INFINITY"]
  | RInf true => [suffix t; "::"; "NEG_INFINITY"]
  | RFin neg m => signed neg (m ++ suffix t)%string
  end.

(** A float put into [quote!] directly (for instance clip.rs:30-45): the library
    makes a suffixed literal and asserts that the number is finite; [None] is
    that panic. *)
Definition quoted_tokens (t : fty) (f : rfloat) : option (list token) :=
  match f with RFin neg m => Some (signed neg (m ++ suffix t)%string) | _ => None end.

(** pad.rs:35: [TokenStream::from_str(&format!("{}_f32", value))]. *)
Definition pad_tokens (f : rfloat) : list token :=
  match f with
  | RNaN => ["NaN_f32"]
  | RInf neg => signed neg "inf_f32"
  | RFin neg m => signed neg (m ++ "_f32")%string
  end.

(** codegen.rs:112-165: padding of one, two and three dimensions; [None] in
    three dimensions is the panic for sides that differ. *)
Inductive pconf := PValid | P1 (l r : N) | P2 (top left bottom right : N) | P3 (front top left back bottom right : N).
Definition padding_name (dims : nat) : string := match dims with 1 => "PaddingConfig1d" | 2 => "PaddingConfig2d" | _ => "PaddingConfig3d" end.
Definition padding_tokens (dims : nat) (p : pconf) : option (list token) :=
  match p with
  | PValid => Some [padding_name dims; "::"; "Valid"]
  | P1 l r => Some ["PaddingConfig1d"; "::"; "Explicit"; "("; dec l; ","; dec r; ")"]
  | P2 t l b r => Some ["PaddingConfig2d"; "::"; "Explicit"; "("; dec t; ","; dec l; ","; dec b; ","; dec r; ")"]
  | P3 f t l k b r =>
      if negb (f =? k)%N || negb (t =? b)%N || negb (l =? r)%N then None
      else Some ["PaddingConfig3d"; "::"; "Explicit"; "("; dec f; ","; dec t; ","; dec l; ")"]
  end.
