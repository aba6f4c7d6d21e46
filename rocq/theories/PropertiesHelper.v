(** * C89 (shapes and indices), C90 (apply_gradients) *)
From Verif Require Import Base Arith Helper Tensor Network Float32 Spec SpecLayer SpecTrain ProofsHelper Demo DemoNet DemoTrain.
Local Open Scope N_scope.

(** ** C89 *)
(** [TensorShape::new] keeps positive extents and turns 0 into 1; [new_1d] and [new_2d] keep theirs and fill up with 1. *)
Theorem C89_shapes : forall i j k,
  let '(a, b, c) := shape_get (shape_new i j k) in
  (0 < i -> a = i) /\ (0 < j -> b = j) /\ (0 < k -> c = k) /\ (i = 0 -> a = 1) /\ (j = 0 -> b = 1) /\ (k = 0 -> c = 1)
  /\ shape_get (shape_1d i) = (i, 1, 1) /\ shape_get (shape_2d i j) = (i, j, 1) /\ shape_get (mkShape i j k) = (i, j, k).
Proof. exact shape_constructors. Qed.
Print Assumptions C89_shapes.

(** Shapes are equal if [get] returns the same extents. *)
Theorem C89_equality : forall a b, shape_eqb a b = true <-> shape_get a = shape_get b.
Proof. exact shape_eq_get. Qed.
Print Assumptions C89_equality.

(** An index fits if every component is below its extent. *)
Theorem C89_fits : forall s x, fits_index s x = true <-> let '(a, b, c) := shape_get s in ix x < a /\ jx x < b /\ kx x < c.
Proof. exact fits_iff. Qed.
Print Assumptions C89_fits.

Theorem C89_indices : forall i j n m, fits_index (shape_1d n) (index_1d i) = (i <? n) /\ fits_index (shape_2d n m) (index_2d i j) = ((i <? n) && (j <? m))%bool
  /\ (forall a b c, fits_index (shape_new a b c) index_zero = true)
  /\ index_2d i 0 = index_1d i /\ index_1d 0 = index_zero.
Proof. exact index_constructors. Qed.
Print Assumptions C89_indices.

(** [total_size] counts the fitting indices, if the products fit into u32. In a debug build it panics otherwise. *)
Theorem C89_total_size : forall bm s, allocatable s ->
  exists l, NoDup l /\ (forall x, In x l <-> fits_index s x = true) /\ total_size bm s = Done (len l).
Proof. exact fitting_indices. Qed.
Print Assumptions C89_total_size.

Theorem C89_overflow : forall s n, total_size Debug s = Done n <-> (di s * dj s < W32 /\ di s * dj s * dk s < W32 /\ n = di s * dj s * dk s).
Proof. exact size_debug. Qed.
Print Assumptions C89_overflow.

(** Transposing a shape swaps the first two components of the indices that fit, and is undone by transposing again. *)
Theorem C89_transpose : forall s x, fits_index (shape_transpose_ij s) (mkIndex (jx x) (ix x) (kx x)) = fits_index s x /\ shape_transpose_ij (shape_transpose_ij s) = s.
Proof. exact transposed. Qed.
Print Assumptions C89_transpose.

Example C89_case : allocatable (mkShape 2 3 4) /\ total_size Release (mkShape 2 3 4) = Done 24 /\ shape_get (shape_new 0 3 4) = (1, 3, 4)
  /\ fits_index (mkShape 2 3 4) (mkIndex 1 2 3) = true /\ fits_index (mkShape 2 3 4) (mkIndex 2 0 0) = false
  /\ fits_index (shape_transpose_ij (mkShape 2 3 4)) (mkIndex 2 0 0) = true
  /\ total_size Debug (mkShape 65536 65536 0) = Panic POverflow.
Proof. repeat split; reflexivity. Qed.

(** ** C90: apply_gradients *)
(** [Layer::apply_gradients] does nothing, whatever the layer. *)
Theorem C90_apply_gradients_partial : forall F (AR : Arith F) (l : layer F), apply_gradients l = l.
Proof. exact @apply_gradients_nothing. Qed.
Print Assumptions C90_apply_gradients_partial.

(** A layer with weights (2, 3) and bias -1 is trained on one sample. It has the weight gradients (3, 6) and the bias gradient 3, but applying
    them leaves the weights and the bias as they were. *)
Theorem C90_apply_gradients_refuted : exists l' : fc_layer f32, train_all Debug (LFC t_fc) [t_pair 1 2 3] = Done (LFC l', Ok tt)
  /\ fc_grads (Done (LFC l', Ok tt)) = Some (ints [3; 6]%Z, ints [3]%Z)
  /\ match apply_gradients (LFC l') with LFC l => tbits (fc_weights l) = ints [2; 3]%Z /\ tbits (fc_bias l) = ints [-1]%Z | _ => False end.
Proof.
  assert (Q : match train_all Debug (LFC t_fc) [t_pair 1 2 3] with
              | Done (LFC l', Ok tt) => fc_grads (Done (LFC l', Ok tt)) = Some (ints [3; 6]%Z, ints [3]%Z)
                  /\ match apply_gradients (LFC l') with LFC l => tbits (fc_weights l) = ints [2; 3]%Z /\ tbits (fc_bias l) = ints [-1]%Z | _ => False end
              | _ => False
              end) by (vm_compute; repeat split).
  destruct (train_all Debug (LFC t_fc) [t_pair 1 2 3]) as [[[l'|l'|l'|l'] [[]|]]|]; try contradiction Q. exists l'. split; [reflexivity|exact Q].
Qed.
Print Assumptions C90_apply_gradients_refuted.
