(** Model of the [use] lines of generated files: burn/imports.rs,
    burn/graph.rs:169-229, 276-303 and the [register_imports] of the nodes in
    burn/node/*.rs (paths below are under crates/burn-onnx/src). *)
From Coq Require Import OrderedTypeEx.
From Verif Require Import IR_Model Uses_Spec.
Local Open Scope string_scope.
Local Open Scope list_scope.

Definition is_sigmoid (a : act) : bool := match a with Sigmoid => true | _ => false end.
Definition is_tanh (a : act) : bool := match a with Tanh => true | _ => false end.

(** [register_imports] of one node, without the graphs inside it; [None] is a
    panic.  burn/node/avg_pool1d.rs:57-61, avg_pool2d.rs:57-61,
    max_pool1d.rs:57-61, max_pool2d.rs:57-61, global_avg_pool.rs:53-69,
    conv1d.rs:68-72, conv2d.rs:92-96, conv3d.rs:67-71,
    conv_transpose_{1d,2d,3d}.rs:57-61, deform_conv.rs:99-103,
    batch_norm.rs:94-104, group_norm.rs:79-82, instance_norm.rs:69-72,
    layer_norm.rs:85-88, linear.rs:88-94, prelu.rs:67-70, dropout.rs:41-44,
    lstm.rs:522-548, rnn.rs:475-497, random_*.rs:26-32, bernoulli.rs:47-49,
    log_softmax.rs:22-24, attention.rs:34-38, cast.rs:170-190,
    reshape.rs:254-261, cumsum.rs:45-50, loop_node.rs:386-412; the others
    register nothing (node_traits.rs:98). *)
Definition registers (k : ikind) : option (list string) :=
  match k with
  | KAvgPool1d => Some ["burn::nn::pool::AvgPool1d"; "burn::nn::pool::AvgPool1dConfig"; "burn::nn::PaddingConfig1d"]
  | KAvgPool2d => Some ["burn::nn::pool::AvgPool2d"; "burn::nn::pool::AvgPool2dConfig"; "burn::nn::PaddingConfig2d"]
  | KMaxPool1d => Some ["burn::nn::pool::MaxPool1d"; "burn::nn::pool::MaxPool1dConfig"; "burn::nn::PaddingConfig1d"]
  | KMaxPool2d => Some ["burn::nn::pool::MaxPool2d"; "burn::nn::pool::MaxPool2dConfig"; "burn::nn::PaddingConfig2d"]
  | KGlobalAvg r =>
      match r with
      | 3 => Some ["burn::nn::pool::AdaptiveAvgPool1d"; "burn::nn::pool::AdaptiveAvgPool1dConfig"]
      | 4 => Some ["burn::nn::pool::AdaptiveAvgPool2d"; "burn::nn::pool::AdaptiveAvgPool2dConfig"]
      | _ => None
      end
  | KConv1d => Some ["burn::nn::PaddingConfig1d"; "burn::nn::conv::Conv1d"; "burn::nn::conv::Conv1dConfig"]
  | KConv2d => Some ["burn::nn::PaddingConfig2d"; "burn::nn::conv::Conv2d"; "burn::nn::conv::Conv2dConfig"]
  | KConv3d => Some ["burn::nn::PaddingConfig3d"; "burn::nn::conv::Conv3d"; "burn::nn::conv::Conv3dConfig"]
  | KConvT1d => Some ["burn::nn::conv::ConvTranspose1d"; "burn::nn::conv::ConvTranspose1dConfig"]
  | KConvT2d => Some ["burn::nn::conv::ConvTranspose2d"; "burn::nn::conv::ConvTranspose2dConfig"]
  | KConvT3d => Some ["burn::nn::conv::ConvTranspose3d"; "burn::nn::conv::ConvTranspose3dConfig"]
  | KDeform => Some ["burn::nn::PaddingConfig2d"; "burn::nn::conv::DeformConv2d"; "burn::nn::conv::DeformConv2dConfig"]
  | KBatchNorm static => Some (if static then ["burn::nn::BatchNorm"; "burn::nn::BatchNormConfig"] else [])
  | KGroupNorm => Some ["burn::nn::GroupNorm"; "burn::nn::GroupNormConfig"]
  | KInstanceNorm => Some ["burn::nn::InstanceNorm"; "burn::nn::InstanceNormConfig"]
  | KLayerNorm => Some ["burn::nn::LayerNorm"; "burn::nn::LayerNormConfig"]
  | KLinear transposed =>
      Some (["burn::nn::Linear"; "burn::nn::LinearConfig"] ++ (if transposed then ["burn::nn::LinearLayout"] else []))
  | KPRelu => Some ["burn::nn::PRelu"; "burn::nn::PReluConfig"]
  | KDropout => Some ["burn::nn::Dropout"; "burn::nn::DropoutConfig"]
  | KLstm g c h both _ =>
      Some ((if negb (is_sigmoid g) || negb (is_tanh c) || negb (is_tanh h) then ["burn::nn::ActivationConfig"] else [])
            ++ (if both then ["burn::nn::BiLstm"; "burn::nn::BiLstmConfig"; "burn::nn::LstmState"]
                else ["burn::nn::Lstm"; "burn::nn::LstmConfig"; "burn::nn::LstmState"]))
  | KRnn h both _ =>
      Some ((if negb (is_tanh h) then ["burn::nn::ActivationConfig"] else [])
            ++ (if both then ["burn::nn::BiRnn"; "burn::nn::BiRnnConfig"; "burn::nn::RnnState"]
                else ["burn::nn::Rnn"; "burn::nn::RnnConfig"; "burn::nn::RnnState"]))
  | KRandom | KBernoulli => Some ["burn::tensor::Distribution"]
  | KLogSoftmax => Some ["burn::tensor::activation::log_softmax"]
  | KAttention by_burn => Some (if negb by_burn then ["burn::tensor::activation::softmax"] else [])
  | KCast stt to_bool =>
      Some (if stt then ["burn::tensor::TensorData"] ++ (if to_bool then ["burn::tensor::Bool"] else []) else [])
  | KReshape stt => Some (if stt then ["burn::tensor::TensorData"] else [])
  | KCumSum exclusive => Some (if exclusive then ["burn::tensor::Tensor"] else [])
  | KLoop collects scalars =>
      Some (if collects then ["burn::tensor::Tensor"] ++ (if scalars then ["burn::tensor::TensorData"] else []) else [])
  | KIf | KScan | KConstHalf | KGatherShape | KOther => Some []
  end.

(** Registrations one after the other; the first panic ends them. *)
Fixpoint sequence (l : list (option (list string))) : option (list string) :=
  match l with
  | [] => Some []
  | None :: _ => None
  | Some a :: r => match sequence r with Some b => Some (a ++ b) | None => None end
  end.

(** burn/node_codegen.rs:42-47 with if_node.rs:128-138, loop_node.rs:380-384,
    scan_node.rs:303-308: control flow registers the nodes of its graphs
    first. *)
Fixpoint register_imports (n : inode) : option (list string) :=
  match n with
  | INode k subs =>
      let inner := if has_graphs k then sequence (map (fun l => sequence (map register_imports l)) subs) else Some [] in
      sequence [inner; registers k]
  end.

(** burn/graph.rs:224-229 and, with a parameter file, 277-278 or 302-303
    (registered before the nodes). *)
Definition all_registered (burnpack : bool) (g : list inode) : option (list string) :=
  sequence [Some (if burnpack then ["burn_store::BurnpackStore"; "burn_store::ModuleSnapshot"] else []);
            sequence (map register_imports g)].

(** Insertion sort for the standard library's sort (burn/imports.rs:28). *)
Fixpoint insert (x : string) (l : list string) : list string :=
  match l with
  | [] => [x]
  | y :: r => match String_as_OT.cmp x y with Gt => y :: insert x r | _ => x :: y :: r end
  end.
Definition sort (l : list string) : list string := fold_right insert [] l.

(** burn/imports.rs:18-43 [register] and [codegen]: the set holds each path once
    and is walked in an unknown order [walk]; the lines come sorted, and a path
    that does not parse panics. *)
Definition codegen (walk : list string) : option (list string) :=
  let l := sort walk in if forallb is_path l then Some l else None.

(** The relation between a graph and the [use] lines of its file. *)
Definition use_lines (burnpack : bool) (g : list inode) (lines : list string) : Prop :=
  exists all walk, all_registered burnpack g = Some all /\ NoDup walk /\ (forall p, In p walk <-> In p all)
    /\ codegen walk = Some lines.

(** The short names that the code of a node begins paths with: the types in
    [field] and [new], the functions and types in [forward].  Same files as
    above; padding: burn/codegen.rs:112-165; states: lstm.rs:381-396,
    rnn.rs:353-368; activations: lstm.rs:305-317, rnn.rs:289-295;
    constant.rs:198-206 (half), gather.rs:127, 155 and gathernd.rs (alloc).
    Names inside longer paths are left out, and so are names the code defines
    itself. *)
Definition mentions (k : ikind) : list string :=
  match k with
  | KAvgPool1d => ["AvgPool1d"; "AvgPool1dConfig"; "PaddingConfig1d"]
  | KAvgPool2d => ["AvgPool2d"; "AvgPool2dConfig"; "PaddingConfig2d"]
  | KMaxPool1d => ["MaxPool1d"; "MaxPool1dConfig"; "PaddingConfig1d"]
  | KMaxPool2d => ["MaxPool2d"; "MaxPool2dConfig"; "PaddingConfig2d"]
  | KGlobalAvg r =>
      match r with
      | 3 => ["AdaptiveAvgPool1d"; "AdaptiveAvgPool1dConfig"]
      | 4 => ["AdaptiveAvgPool2d"; "AdaptiveAvgPool2dConfig"]
      | _ => []
      end
  | KConv1d => ["Conv1d"; "Conv1dConfig"; "PaddingConfig1d"]
  | KConv2d => ["Conv2d"; "Conv2dConfig"; "PaddingConfig2d"]
  | KConv3d => ["Conv3d"; "Conv3dConfig"; "PaddingConfig3d"]
  | KConvT1d => ["ConvTranspose1d"; "ConvTranspose1dConfig"]
  | KConvT2d => ["ConvTranspose2d"; "ConvTranspose2dConfig"]
  | KConvT3d => ["ConvTranspose3d"; "ConvTranspose3dConfig"]
  | KDeform => ["DeformConv2d"; "DeformConv2dConfig"; "PaddingConfig2d"]
  | KBatchNorm static => if static then ["BatchNorm"; "BatchNormConfig"] else ["burn"]
  | KGroupNorm => ["GroupNorm"; "GroupNormConfig"]
  | KInstanceNorm => ["InstanceNorm"; "InstanceNormConfig"]
  | KLayerNorm => ["LayerNorm"; "LayerNormConfig"]
  | KLinear transposed => ["Linear"; "LinearConfig"] ++ (if transposed then ["LinearLayout"] else [])
  | KPRelu => ["PRelu"; "PReluConfig"]
  | KDropout => ["Dropout"; "DropoutConfig"]
  | KLstm g c h both initial =>
      (if both then ["BiLstm"; "BiLstmConfig"] else ["Lstm"; "LstmConfig"])
      ++ (if is_sigmoid g then [] else ["ActivationConfig"])
      ++ (if is_tanh c then [] else ["ActivationConfig"])
      ++ (if is_tanh h then [] else ["ActivationConfig"])
      ++ (if initial then ["LstmState"] else [])
  | KRnn h both initial =>
      (if both then ["BiRnn"; "BiRnnConfig"] else ["Rnn"; "RnnConfig"])
      ++ (if is_tanh h then [] else ["ActivationConfig"])
      ++ (if initial then ["RnnState"] else [])
  | KRandom => ["Tensor"; "Distribution"; "Shape"]
  | KBernoulli => ["Distribution"]
  | KLogSoftmax => ["log_softmax"]
  | KAttention by_burn => if by_burn then ["burn"] else ["softmax"; "Tensor"]
  | KCast stt to_bool => if stt then ["Tensor"; "TensorData"] ++ (if to_bool then ["Bool"] else []) else ["burn"]
  | KReshape stt => if stt then ["TensorData"; "Tensor"] else ["burn"]
  | KCumSum exclusive => if exclusive then ["Tensor"] else []
  | KLoop collects scalars => if collects then ["Tensor"] ++ (if scalars then ["TensorData"] else []) else []
  | KConstHalf => ["half"]
  | KGatherShape => ["alloc"]
  | KIf | KScan | KOther => ["Tensor"; "burn"]
  end.

(** All names mentioned at any depth: the code of the graphs inside a node is
    part of the code of the node, and fields of nodes at any depth are fields of
    the model (graph.rs:348-449, C35). *)
Fixpoint mentioned (n : inode) : list string :=
  match n with INode k subs => mentions k ++ flat_map (fun l => flat_map mentioned l) subs end.
