(** Graphs that coalescing attention changes. *)
From Flocq Require Import Core BinarySingleNaN.
From Verif Require Import IR_Model Passes_Model Attention_Spec Attention_Model Attention_Cond Attention_Demo.
From Verif Require Import Tensor_Spec.
From Coq Require Import Lra Lia.
Open Scope string_scope. Open Scope list_scope. Open Scope N_scope.

Definition two_way (a b : R) : R := (exp a / (exp a + exp b))%R.
Lemma two_way_inj a b c d : two_way a b = two_way c d -> (a - b = c - d)%R.
Proof.
  unfold two_way. intros H. pose proof (exp_pos a). pose proof (exp_pos b). pose proof (exp_pos c). pose proof (exp_pos d).
  assert (E : (exp a * exp d = exp c * exp b)%R).
  { assert (E : (exp a * (exp c + exp d) = exp c * (exp a + exp b))%R).
    { transitivity ((exp a / (exp a + exp b)) * ((exp a + exp b) * (exp c + exp d)))%R; [field; lra|]. rewrite H. field. lra. }
    lra. }
  rewrite <- !exp_plus in E. apply exp_inv in E. lra.
Qed.

(** The result [out] of two graphs. *)
Definition differ (static : N -> option rt) (e0 : string -> option rt) (nodes nodes' : list rnode) : Prop :=
  exists e e', run demo_sem static e0 nodes = Some e /\ run demo_sem static e0 nodes' = Some e' /\ e "out" <> e' "out".

Definition out_data (static : N -> option rt) (e0 : string -> option rt) (nodes : list rnode) : option (list R) :=
  match run demo_sem static e0 nodes with Some e => option_map tdata (e "out") | None => None end.
Lemma differ_data static e0 nodes nodes' l l' : out_data static e0 nodes = Some l -> out_data static e0 nodes' = Some l' -> l <> l' ->
  differ static e0 nodes nodes'.
Proof.
  unfold out_data, differ. intros H H' N. destruct (run demo_sem static e0 nodes) as [e|]; [|discriminate].
  destruct (run demo_sem static e0 nodes') as [e'|]; [|discriminate]. exists e, e'. split; [reflexivity|]. split; [reflexivity|].
  intros E. rewrite E in H. congruence.
Qed.

Definition given3 (q k v : rt) : string -> option rt := fun x =>
  if String.eqb x "q" then Some q else if String.eqb x "k" then Some k else if String.eqb x "v" then Some v else None.

(** ** No scale *)
Definition unscaled : list rnode :=
  [ mkNode "Transpose" "tr" [t4 "k"] [t4 "kt"] [("perm", AInts [0; 1; 3; 2]%Z)];
    mkNode "MatMul" "mm" [t4 "q"; t4 "kt"] [t4 "s"] [];
    mkNode "Softmax" "sm" [t4 "s"] [t4 "p"] [];
    mkNode "MatMul" "mv" [t4 "p"; t4 "v"] [t4 "out"] [] ].
Definition unscaled_given := given3 (mkT [1;1;1;4] [1;0;0;0]%R) (mkT [1;1;2;4] [1;0;0;0;0;0;0;0]%R) (mkT [1;1;2;1] [1;0]%R).

Ltac out_of := lazy -[exp Rplus Rmult Rdiv Rinv IZR sqrt powerRZ]; reflexivity.
Lemma first_of_two a b : (exp a / (exp a + (exp b + 0)) * 1 + (exp b / (exp a + (exp b + 0)) * 0 + 0))%R = two_way a b.
Proof. unfold two_way. rewrite !Rplus_0_r. ring. Qed.

Lemma unscaled_differ : differ chain_static unscaled_given unscaled (coalesced unscaled).
Proof.
  eapply differ_data; [out_of|out_of|]. intros H. injection H as H. rewrite !first_of_two in H. apply two_way_inj in H.
  replace (sqrt 4) with 2%R in H; [lra|]. replace 4%R with (2 * 2)%R by lra. rewrite sqrt_square; lra.
Qed.

(** ** A scale that is not a 32-bit number: 1 + 2^-40, rounded to 1 *)
Definition scaled : list rnode :=
  [ mkNode "Transpose" "tr" [t4 "k"] [t4 "kt"] [("perm", AInts [0; 1; 3; 2]%Z)];
    mkNode "MatMul" "mm" [t4 "q"; t4 "kt"] [t4 "s"] [];
    mkNode "Mul" "mul" [t4 "s"; t0 "c"] [t4 "s2"] [];
    mkNode "Softmax" "sm" [t4 "s2"] [t4 "p"] [];
    mkNode "MatMul" "mv" [t4 "p"; t4 "v"] [t4 "out"] [] ].
Definition fine : f64 := binary_normalize 53 1024 _ _ mode_NE 1099511627777 (-40) false.
Definition fine_scalar (a : arg) : reading := if String.eqb (aname a) "c" then Number fine else NoValue.
Definition fine_static (id : N) : option rt := if id =? 0 then Some (mkT [] [B2R fine]) else None.
Definition small_given := given3 (mkT [1;1;1;1] [1]%R) (mkT [1;1;2;1] [1;0]%R) (mkT [1;1;2;1] [1;0]%R).
Definition coalesced_by (scalar : arg -> reading) (ns : list rnode) : list rnode :=
  match coalesce_attention scalar ns with Done l => l | _ => [] end.

Lemma fine_real : B2R fine = (1 + / 1099511627776)%R.
Proof. lazy -[Rplus Rmult Rdiv Rinv IZR]. field. Qed.
Lemma fine_rounded : f32_real (bits32 (as_f32 fine)) = 1%R.
Proof.
  assert (E : bits32 (as_f32 fine) = 1065353216) by reflexivity. rewrite E. unfold f32_real.
  lazy -[Rplus Rmult Rdiv Rinv IZR powerRZ Z.sub].
  replace (powerRZ 2 (127 - 150)) with (/ 8388608)%R; [field|]. change 2%R with (IZR radix2). rewrite <- bpow_powerRZ. reflexivity.
Qed.
Lemma fine_differ : differ fine_static small_given scaled (coalesced_by fine_scalar scaled).
Proof.
  eapply differ_data; [lazy -[exp Rplus Rmult Rdiv Rinv IZR sqrt powerRZ B2R fine f32_real bits32 as_f32]; reflexivity
                      |lazy -[exp Rplus Rmult Rdiv Rinv IZR sqrt powerRZ f32_real bits32 as_f32 fine]; reflexivity|].
  rewrite fine_real, fine_rounded. intros H. injection H as H. rewrite !first_of_two in H. apply two_way_inj in H. lra.
Qed.

(** ** A vector of constants, of which the first is taken for the scale *)
Definition vector_scalar (a : arg) : reading := if String.eqb (aname a) "c" then Number (f64_of_Z 1) else NoValue.
Definition vector_static (id : N) : option rt := if id =? 0 then Some (mkT [2] [1; 2]%R) else None.
Definition ones_given := given3 (mkT [1;1;1;1] [1]%R) (mkT [1;1;2;1] [1;1]%R) (mkT [1;1;2;1] [1;0]%R).
Lemma one_bits : f32_real 1065353216 = 1%R.
Proof. rewrite <- fine_rounded. reflexivity. Qed.
Lemma vector_differ : differ vector_static ones_given scaled (coalesced_by vector_scalar scaled).
Proof.
  eapply differ_data; [out_of|lazy -[exp Rplus Rmult Rdiv Rinv IZR sqrt powerRZ f32_real]; reflexivity|].
  rewrite one_bits. intros H. injection H as H. rewrite !first_of_two in H. apply two_way_inj in H. lra.
Qed.

(** ** Scaled before and after: the second scale is forgotten *)
Definition twice : list rnode :=
  [ mkNode "Transpose" "trq" [t4 "q"] [t4 "qt"] [("perm", AInts [0; 2; 1; 3]%Z)];
    mkNode "Transpose" "trk" [t4 "k"] [t4 "kt"] [("perm", AInts [0; 2; 3; 1]%Z)];
    mkNode "Mul" "mulq" [t4 "qt"; t0 "two"] [t4 "qs"] [];
    mkNode "Mul" "mulk" [t4 "kt"; t0 "two"] [t4 "ks"] [];
    mkNode "MatMul" "mm" [t4 "qs"; t4 "ks"] [t4 "s"] [];
    mkNode "Div" "div" [t4 "s"; t0 "two"] [t4 "s2"] [];
    mkNode "Softmax" "sm" [t4 "s2"] [t4 "p"] [];
    mkNode "MatMul" "mv" [t4 "p"; t4 "v"] [t4 "out"] [] ].
Definition twice_given := given3 (mkT [1;1;1;1] [1]%R) (mkT [1;2;1;1] [1;0]%R) (mkT [1;1;2;1] [1;0]%R).
Lemma four_bits : f32_real 1082130432 = 4%R.
Proof.
  unfold f32_real. lazy -[Rplus Rmult Rdiv Rinv IZR powerRZ Z.sub].
  replace (powerRZ 2 (129 - 150)) with (/ 2097152)%R; [field|]. change 2%R with (IZR radix2). rewrite <- bpow_powerRZ. reflexivity.
Qed.
Lemma twice_differ : differ chain_static twice_given twice (eliminate_dead_nodes (coalesced twice) [t4 "out"]).
Proof.
  eapply differ_data; [out_of|lazy -[exp Rplus Rmult Rdiv Rinv IZR sqrt powerRZ f32_real]; reflexivity|].
  rewrite four_bits. intros H. injection H as H. rewrite !first_of_two in H. apply two_way_inj in H. lra.
Qed.

(** ** A mask of rank 3 is aligned at the left *)
Definition t3 (x : string) : arg := mkArg x (TensorT (mkTT F32 3 None)) VDynamic.
Definition masked3 : list rnode :=
  [ mkNode "Transpose" "tr" [t4 "k"] [t4 "kt"] [("perm", AInts [0; 1; 3; 2]%Z)];
    mkNode "MatMul" "mm" [t4 "q"; t4 "kt"] [t4 "s"] [];
    mkNode "Div" "div" [t4 "s"; t0 "two"] [t4 "s2"] [];
    mkNode "Add" "add" [t4 "s2"; t3 "mask"] [t4 "s3"] [];
    mkNode "Softmax" "sm" [t4 "s3"] [t4 "p"] [];
    mkNode "MatMul" "mv" [t4 "p"; t4 "v"] [t4 "out"] [] ].
Definition masked3_given : string -> option rt := fun x =>
  if String.eqb x "mask" then Some (mkT [2;1;2] [0;0;1;0]%R)
  else given3 (mkT [2;2;1;1] [0;0;0;0]%R) (mkT [2;2;2;1] [0;0;0;0;0;0;0;0]%R) (mkT [2;2;2;1] [1;0;1;0;1;0;1;0]%R) x.
Lemma masked3_differ : differ chain_static masked3_given masked3 (coalesced masked3).
Proof.
  eapply differ_data; [out_of|lazy -[exp Rplus Rmult Rdiv Rinv IZR sqrt powerRZ f32_real]; reflexivity|].
  intros H. injection H as _ H _ _. rewrite !first_of_two in H. apply two_way_inj in H. lra.
Qed.
