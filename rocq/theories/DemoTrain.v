(** * Concrete layers in training mode for the examples beside the layer theorems *)
From Verif Require Import Base Arith Helper Tensor Network Float32 Spec SpecLayer SpecTrain Loops TensorFacts LayerFacts Demo DemoNet.
Local Open Scope string_scope.
Local Open Scope N_scope.

(** One output 2x + 3y - 1 of two inputs, in training mode. *)
Definition t_fc : fc_layer f32 :=
  mkFC (tn (mkShape 1 2 1) [2;3]%Z) (tn (mkShape 1 2 1) [0;0]%Z) (tn (mkShape 1 2 1) [0;0]%Z)
       (tn (mkShape 1 1 1) [-1]%Z) (tn (mkShape 1 1 1) [0]%Z) (tn (mkShape 1 1 1) [0]%Z) "dense" Training.

Lemma t_fc_ok : fc_ok 1 2 t_fc.
Proof. do 2 (split; [split; [demo_wf|reflexivity]|]). intros _. do 3 (split; [split; [demo_wf|reflexivity]|]). split; [demo_wf|reflexivity]. Qed.

(** The image times -1, in training mode. *)
Definition t_cv : conv_layer f32 :=
  mkConv [tn (mkShape 1 1 1) [-1]%Z] [tn (mkShape 1 1 1) [0]%Z] [tn (mkShape 1 1 1) [0]%Z] [tn (mkShape 1 1 1) [0]%Z] 1
    (tn (mkShape 1 1 1) [0]%Z) (mkShape 1 1 1) (mkShape 1 1 1) "minus" Training.

Lemma one_forall (P : tensor f32 -> Prop) t : P t -> Forall P [t].
Proof. intros H. constructor; [exact H|constructor]. Qed.

Lemma t_cv_ok : conv_layer_ok (mkShape 1 1 1) t_cv.
Proof.
  split; [apply one_forall; split; [demo_wf|reflexivity]|]. split; [reflexivity|]. split; [vm_compute; discriminate|].
  split; [apply one_forall; split; [demo_wf|repeat split; discriminate]|].
  split; [repeat split; reflexivity|]. split; [repeat split; reflexivity|].
  split; [intros ch H; repeat split; try reflexivity; try discriminate; exact H|].
  intros _. split; [split; [demo_wf|reflexivity]|]. split; [apply one_forall; split; [demo_wf|reflexivity]|reflexivity].
Qed.

(** A history on [t_fc]: two pairs, a clear, another pair. *)
Definition t_y : tensor f32 := tn (mkShape 1 1 1) [0]%Z.
Definition t_x : tensor f32 := tn (mkShape 2 1 1) [0;0]%Z.
Definition t_pair (a b g : Z) : train_op f32 := TPair (tn (mkShape 2 1 1) [a;b]) t_y (tn (mkShape 1 1 1) [g]) t_x.
Definition t_history : list (train_op f32) := [t_pair 9 9 9; TClear; t_pair 1 2 3; t_pair 4 (-2) 10; t_pair (-1) 0 7].

Definition fc_grads (r : res (layer f32 * result unit)) : option (list Z * list Z) :=
  match r with Done (LFC l, Ok _) => Some (tbits (fc_weights_gradients l), tbits (fc_bias_gradients l)) | _ => None end.
Definition cv_grads (r : res (layer f32 * result unit)) : option (list (list Z) * list (list Z)) :=
  match r with Done (LConv l, Ok _) => Some (map tbits (cv_kernel_gradients l), map tbits (cv_bias_gradients l)) | _ => None end.

(** The outgoing gradients of two backward calls in a row after one forward call. *)
Definition twice (l : layer f32) (x y g og : tensor f32) : option (list Z * list Z) :=
  match forward Debug l x y with
  | Done (l1, y1, Ok _) =>
      match backward Debug l1 x y1 g og with
      | Done (l2, og1, Ok _) => match backward Debug l2 x y1 g og1 with Done (_, og2, Ok _) => Some (tbits og1, tbits og2) | _ => None end
      | _ => None
      end
  | _ => None
  end.

(** The output of a forward pass. *)
Definition outs {L} (r : res (L * tensor f32 * result unit)) : option (list Z) :=
  match r with Done (_, t, Ok _) => Some (tbits t) | _ => None end.
