(** * Specification vocabulary for histories of network operations *)
From Verif Require Import Base Arith Helper Tensor Network Bincode Serial Spec SpecLayer.

(** What a caller can do to a network. *)
Inductive net_op (F : Type) :=
| OAdd (l : layer F)
| OLoad (fs : filesystem) (name : string)
| OInfer (x : tensor F)
| OBackward (g : tensor F)
| OTrain
| OInference.
Arguments OAdd {F} _.
Arguments OLoad {F} _ _.
Arguments OInfer {F} _.
Arguments OBackward {F} _.
Arguments OTrain {F}.
Arguments OInference {F}.

Section Scalars.
Context {F : Type} {AR : Arith F} {BT : Bits F}.

Definition run_op (bm : build) (n : network F) (op : net_op F) : res (network F * result unit) :=
  match op with
  | OAdd l => add_layer bm n l
  | OLoad fs name => network_load bm n fs name
  | OInfer x => infer bm n x
  | OBackward g => net_backward bm n g
  | OTrain => n' <- net_switch_to_training bm n ;; Done (n', Ok tt)
  | OInference => n' <- net_switch_to_inference bm n ;; Done (n', Ok tt)
  end.

(** Networks that exist after some finite history of operations, whatever each returned. *)
Inductive reachable (bm : build) : network F -> Prop :=
| reach_new st : reachable bm (network_new st)
| reach_step n op n' r : reachable bm n -> run_op bm n op = Done (n', r) -> reachable bm n'.

(** Adjacent shapes agree, the network's shapes are the outer ones, one state per boundary. *)
Definition structured (n : network F) : Prop :=
  linked (net_input_shape n) (layers n)
  /\ net_input_shape n = hd (mkShape 0 0 0) (boundaries (layers n))
  /\ net_output_shape n = last (boundaries (layers n)) (mkShape 0 0 0)
  /\ map tshape (intermediate_states n) = boundaries (layers n).

(** Operations that only run the network. *)
Definition runs_only (op : net_op F) : Prop :=
  match op with OAdd _ | OLoad _ _ => False | _ => True end.

End Scalars.

(** ** Networks of well-formed layers *)

(** The structure above, well-formed layers, and well-formed tensors in every buffer. *)
Definition net_ok {F} (n : network F) : Prop :=
  structured n /\ Forall layer_ok (layers n) /\ Forall wf (intermediate_states n) /\ Forall wf (intermediate_gradients n).

(** Operations with well-formed arguments. *)
Definition good_op {F} (op : net_op F) : Prop :=
  match op with
  | OAdd l => layer_ok l
  | OLoad _ _ => False
  | OInfer x => wf x
  | OBackward g => wf g
  | OTrain | OInference => True
  end.

(** Networks built from well-formed layers and run on well-formed tensors, in any order. A file may be loaded if the layers
    it holds are well-formed. *)
Inductive well_built {F} {AR : Arith F} {BT : Bits F} (bm : build) : network F -> Prop :=
| built_new st : well_built bm (network_new st)
| built_step n op n' r : well_built bm n -> good_op op -> run_op bm n op = Done (n', r) -> well_built bm n'
| built_load n fs name n' r :
    well_built bm n -> run_op bm n (OLoad fs name) = Done (n', r) -> Forall layer_ok (layers n') -> well_built bm n'.

(** Such networks created in training mode, or switched to it, and not switched back. *)
Inductive training_built {F} {AR : Arith F} {BT : Bits F} (bm : build) : network F -> Prop :=
| train_new : training_built bm (network_new Training)
| train_switch n n' : well_built bm n -> net_switch_to_training bm n = Done n' -> training_built bm n'
| train_step n op n' r :
    training_built bm n -> good_op op -> op <> OInference -> run_op bm n op = Done (n', r) -> training_built bm n'
| train_load n fs name n' r :
    training_built bm n -> run_op bm n (OLoad fs name) = Done (n', r) -> Forall layer_ok (layers n') -> training_built bm n'.

(** Layers whose backward pass reads and writes inside its operands: all but convolutions whose kernels are larger than their
    output. *)
Definition stays_inside {F} (l : layer F) : Prop :=
  match l with
  | LConv l => Forall (fun k => outgoing_fits (cv_output_shape l) (tshape k) (cv_input_shape l) (cv_stride l)) (cv_kernels l)
  | _ => True
  end.

(** Of those, layers whose backward pass succeeds in training mode. *)
Definition backs {F} (l : layer F) : Prop :=
  match l with
  | LConv _ => True
  | LFC _ => True
  | LMaxPool l => 0 < di (mp_input_shape l) * dj (mp_input_shape l) * dk (mp_input_shape l)
  | LSoftmax l => dj (sm_shape l) = 1 /\ dk (sm_shape l) = 1
  end.

(** [n'] comes from [n] by operations that do not switch the mode. *)
Inductive ran {F} {AR : Arith F} {BT : Bits F} (bm : build) (n : network F) : network F -> Prop :=
| ran_none : ran bm n n
| ran_step n1 op n2 r :
    ran bm n n1 -> op <> OTrain -> op <> OInference -> run_op bm n1 op = Done (n2, r) -> ran bm n n2.
