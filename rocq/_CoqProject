-Q theories Verif
theories/Agree_Props.v
theories/Agree_Spec.v
theories/Attend_Model.v
theories/Attend_Proofs.v
theories/Attend_Props.v
theories/Attend_Spec.v
theories/Attention_Bad.v
theories/Attention_Cond.v
theories/Attention_Demo.v
theories/Attention_Graph.v
theories/Attention_Match.v
theories/Attention_Model.v
theories/Attention_Proofs.v
theories/Attention_Props.v
theories/Attention_Spec.v
theories/AxisOps_Model.v
theories/AxisOps_Proofs.v
theories/AxisOps_Props.v
theories/AxisOps_Spec.v
theories/BinOps_Model.v
theories/BinOps_Proofs.v
theories/BinOps_Props.v
theories/BinOps_Spec.v
theories/Col2Im_Model.v
theories/Col2Im_Proofs.v
theories/Col2Im_Props.v
theories/Col2Im_Spec.v
theories/Control_Cover.v
theories/Control_Model.v
theories/Control_Nodes.v
theories/Control_Proofs.v
theories/Control_Props.v
theories/Control_Spec.v
theories/Conv_Final.v
theories/Conv_Model.v
theories/Conv_More.v
theories/Conv_Nodes.v
theories/Conv_Proofs.v
theories/Conv_Props.v
theories/Conv_Run.v
theories/Conv_Spec.v
theories/Deform_Model.v
theories/Deform_Proofs.v
theories/Deform_Props.v
theories/Deform_Spec.v
theories/Elements_Model.v
theories/Elements_Proofs.v
theories/Elements_Props.v
theories/Elements_Spec.v
theories/ExtData_Model.v
theories/ExtData_Proofs.v
theories/ExtData_Props.v
theories/ExtData_Spec.v
theories/Fields_Model.v
theories/Fields_Proofs.v
theories/Fields_Props.v
theories/Fields_Spec.v
theories/Files_Model.v
theories/Files_Proofs.v
theories/Files_Props.v
theories/Files_Spec.v
theories/Final_Model.v
theories/Final_Proofs.v
theories/Final_Props.v
theories/Final_Spec.v
theories/Float_Model.v
theories/Float_Proofs.v
theories/Fold_Model.v
theories/Fold_Proofs.v
theories/Fold_Props.v
theories/Fold_Spec.v
theories/IR_Model.v
theories/IR_Proofs.v
theories/IR_Spec.v
theories/Iface_Model.v
theories/Iface_Proofs.v
theories/Iface_Props.v
theories/Iface_Spec.v
theories/ImportForm_Proofs.v
theories/ImportForm_Props.v
theories/ImportForm_Spec.v
theories/Import_Model.v
theories/Import_Proofs.v
theories/Import_Props.v
theories/Import_Spec.v
theories/Index_Model.v
theories/Index_Proofs.v
theories/Index_Props.v
theories/Index_Spec.v
theories/Infer_Model.v
theories/Infer_Proofs.v
theories/Infer_Props.v
theories/Infer_Spec.v
theories/LiftExpand_Model.v
theories/LiftExpand_Props.v
theories/LiftReshape_Model.v
theories/LiftReshape_Props.v
theories/Lift_Model.v
theories/Lift_Props.v
theories/Lift_Spec.v
theories/Linear_Model.v
theories/Linear_Proofs.v
theories/Linear_Props.v
theories/Linear_Spec.v
theories/Lines_Model.v
theories/Lines_Nodes.v
theories/Lines_Proofs.v
theories/Lines_Props.v
theories/Lines_Spec.v
theories/Lit_Model.v
theories/Lit_Props.v
theories/Lit_Spec.v
theories/Load_Model.v
theories/Load_Props.v
theories/Load_Spec.v
theories/Masks_Model.v
theories/Masks_Proofs.v
theories/Masks_Props.v
theories/Masks_Spec.v
theories/MatMul_Model.v
theories/MatMul_Nodes.v
theories/MatMul_Proofs.v
theories/MatMul_Props.v
theories/MatMul_Spec.v
theories/Names_Model.v
theories/Names_Proofs.v
theories/Names_Props.v
theories/Noop_Model.v
theories/Noop_Proofs.v
theories/Noop_Props.v
theories/Noop_Spec.v
theories/Norm_Model.v
theories/Norm_Nodes.v
theories/Norm_Proofs.v
theories/Norm_Props.v
theories/Norm_Spec.v
theories/Ops_Model.v
theories/Ops_Props.v
theories/Ops_Spec.v
theories/OuterRefs_Model.v
theories/OuterRefs_Proofs.v
theories/OuterRefs_Props.v
theories/OuterRefs_Spec.v
theories/Passes_Model.v
theories/Passes_Proofs.v
theories/Passes_Props.v
theories/Passes_Spec.v
theories/Payload_Model.v
theories/Payload_Proofs.v
theories/Payload_Props.v
theories/Payload_Spec.v
theories/Permute_Model.v
theories/Permute_Proofs.v
theories/Permute_Props.v
theories/Permute_Spec.v
theories/Pick_Model.v
theories/Pick_Proofs.v
theories/Pick_Props.v
theories/Pick_Spec.v
theories/Power_Model.v
theories/Power_Proofs.v
theories/Power_Props.v
theories/Power_Spec.v
theories/RankOps_Model.v
theories/RankOps_Proofs.v
theories/RankOps_Props.v
theories/RankOps_Spec.v
theories/Recur_Final.v
theories/Recur_Model.v
theories/Recur_Nodes.v
theories/Recur_Outputs.v
theories/Recur_Proofs.v
theories/Recur_Props.v
theories/Recur_Run.v
theories/Recur_Spec.v
theories/ReduceR_Model.v
theories/ReduceR_Nodes.v
theories/ReduceR_Proofs.v
theories/ReduceR_Props.v
theories/ReduceR_Spec.v
theories/Reduce_Core.v
theories/Reduce_Elems.v
theories/Reduce_Model.v
theories/Reduce_Nodes.v
theories/Reduce_Proofs.v
theories/Reduce_Props.v
theories/Reduce_Spec.v
theories/Resize_Model.v
theories/Resize_Proofs.v
theories/Resize_Props.v
theories/Resize_Spec.v
theories/Sample_Model.v
theories/Sample_Props.v
theories/Sample_Spec.v
theories/Sanitize_Model.v
theories/Sanitize_Proofs.v
theories/Sanitize_Props.v
theories/Sanitize_Spec.v
theories/Scope_Cond.v
theories/Scope_Flow.v
theories/Scope_If.v
theories/Scope_Loop.v
theories/Scope_Model.v
theories/Scope_Proofs.v
theories/Scope_Props.v
theories/Scope_Scan.v
theories/Scope_Spec.v
theories/Scope_State.v
theories/ShapeOps_Model.v
theories/ShapeOps_Proofs.v
theories/ShapeOps_Props.v
theories/ShapeOps_Spec.v
theories/ShapeRun_Model.v
theories/ShapeRun_Proofs.v
theories/ShapeRun_Props.v
theories/ShapeRun_Spec.v
theories/Shapes_Spec.v
theories/SimplifyRun_Props.v
theories/Simplify_Model.v
theories/Simplify_Proofs.v
theories/Simplify_Props.v
theories/Simplify_Run.v
theories/Simplify_Spec.v
theories/Specs_Graph_Props.v
theories/Specs_Model.v
theories/Specs_Props.v
theories/Specs_Spec.v
theories/TensorRun_Model.v
theories/TensorRun_Nodes.v
theories/TensorRun_Proofs.v
theories/TensorRun_Props.v
theories/TensorRun_Spec.v
theories/Tensor_Proofs.v
theories/Tensor_Spec.v
theories/TopSort_Model.v
theories/TopSort_Proofs.v
theories/TopSort_Props.v
theories/TopSort_Spec.v
theories/Unary_Model.v
theories/Unary_Nodes.v
theories/Unary_Proofs.v
theories/Unary_Props.v
theories/Unary_Spec.v
theories/Uses_Model.v
theories/Uses_Proofs.v
theories/Uses_Props.v
theories/Uses_Spec.v
theories/Util.v
