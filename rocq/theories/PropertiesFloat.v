(** * C10, C23, C45, C48 (f32 part): floating-point behaviour *)
From Verif Require Import Base Arith Helper Tensor Float32 Spec ProofsFloat Demo.

(** ** C10: the two sides may even use different NaN and max-tie choices. *)
Theorem C10_fused_equals_unfused : forall e1 e2 bm (input weights bias r mask : tensor f32),
  wf input -> wf weights -> wf bias -> wf r -> wf mask ->
  mm_shapes (tshape weights) (tshape input) (tshape r) -> tshape bias = tshape r -> tshape mask = tshape r ->
  exists p out m,
    @matrix_multiply bm f32 (f32_arith e1) weights input r = Done p
    /\ @relu_self_and_store_mask f32 (f32_arith e1) (@add_to_self f32 (f32_arith e1) p bias) mask = (out, m, Ok tt)
    /\ @matrix_multiply_add_relu bm f32 (f32_arith e2) input weights bias r = Done out.
Proof. exact fused_unfused. Qed.
Print Assumptions C10_fused_equals_unfused.

Theorem C10_mismatch_unchanged : forall F (AR : Arith F) bm (input weights bias r : tensor F),
  ~ mm_shapes (tshape weights) (tshape input) (tshape r) \/ tshape bias <> tshape r ->
  matrix_multiply_add_relu bm input weights bias r = Done r.
Proof. exact @fused_mismatch. Qed.
Print Assumptions C10_mismatch_unchanged.

Example C10_case :
  let w := tn (mkShape 2 3 1) [1;-2;3;-4;5;-6]%Z in let x := tn (mkShape 3 1 1) [1;1;1]%Z in
  let b := tn (mkShape 2 1 1) [1;1]%Z in let r := tn (mkShape 2 1 1) [7;7]%Z in
  wf w /\ wf x /\ wf b /\ wf r /\ mm_shapes (tshape w) (tshape x) (tshape r)
  /\ out1 (matrix_multiply_add_relu Debug x w b r) = Some (ints [10;0]%Z).
Proof.
  split; [demo_wf|]. split; [demo_wf|]. split; [demo_wf|]. split; [demo_wf|]. split; [repeat split|]. vm_compute; reflexivity.
Qed.

(** ** C23 *)
Theorem C23_relu_mask : forall e bm (input mask : tensor f32) s f sm g,
  let AR := f32_arith e in
  @holds f32 AR bm input s f -> @holds f32 AR bm mask sm g ->
  (s = sm -> exists out m, @relu_self_and_store_mask f32 AR input mask = (out, m, Ok tt)
     /\ @holds f32 AR bm out s (fun i j k => if f32_gtb (f i j k) f32_zero then f i j k else f32_zero)
     /\ @holds f32 AR bm m s (fun i j k => if f32_gtb (f i j k) f32_zero then f32_one else f32_zero))
  /\ (s <> sm -> exists msg, @relu_self_and_store_mask f32 AR input mask = (input, mask, Err msg)).
Proof. exact relu_mask_spec. Qed.
Print Assumptions C23_relu_mask.

(** Such a value is never NaN and never below zero. *)
Theorem C23_output_range : forall x, let y := if f32_gtb x f32_zero then x else f32_zero in
  isnan y = false /\ f32_gtb f32_zero y = false.
Proof. exact relu_value. Qed.
Print Assumptions C23_output_range.

Example C23_case :
  let t := mkTensor (mkStride 1 3 3) (mkShape 3 1 1) [f32_of_Z (-2); f32_of_Z 5; b32 2143289344]%Z in
  let m := tn (mkShape 3 1 1) [7;7;7]%Z in
  wf t /\ wf m /\ isnan (b32 2143289344) = true
  /\ (let '(o, m', _) := relu_self_and_store_mask t m in (tbits o, tbits m')) = (ints [0;5;0]%Z, ints [0;1;0]%Z).
Proof. split; [demo_wf|]. split; [demo_wf|]. split; vm_compute; reflexivity. Qed.

(** ** C45 *)
Theorem C45_symmetric : forall e (a b : tensor f32), let AR := f32_arith e in
  @tensor_eqb f32 AR a b = @tensor_eqb f32 AR b a.
Proof. exact f32_tensor_eqb_sym. Qed.
Print Assumptions C45_symmetric.

Theorem C45_transitive : forall e (a b c : tensor f32), let AR := f32_arith e in
  @tensor_eqb f32 AR a b = true -> @tensor_eqb f32 AR b c = true -> @tensor_eqb f32 AR a c = true.
Proof. exact f32_tensor_eqb_trans. Qed.
Print Assumptions C45_transitive.

Theorem C45_reflexive_iff_no_nan : forall e (a : tensor f32), let AR := f32_arith e in
  @tensor_eqb f32 AR a a = true <-> forall x, In x (data a) -> isnan x = false.
Proof. exact f32_tensor_eqb_refl. Qed.
Print Assumptions C45_reflexive_iff_no_nan.

Theorem C45_items : forall F (AR : Arith F) bm (a b : tensor F), wf a -> wf b ->
  (tensor_eqb a b = true <->
   tshape a = tshape b /\ forall i j k, in_shape (tshape a) i j k ->
      exists x y, get_item bm a (mkIndex i j k) = Done x /\ get_item bm b (mkIndex i j k) = Done y /\ feqb x y = true).
Proof. exact @tensor_eqb_items. Qed.
Print Assumptions C45_items.

Theorem C45_ignores_strides : forall F (AR : Arith F) st st' s d (b : tensor F),
  tensor_eqb (mkTensor st s d) b = tensor_eqb (mkTensor st' s d) b
  /\ tensor_eqb b (mkTensor st s d) = tensor_eqb b (mkTensor st' s d).
Proof. exact @tensor_eqb_strides. Qed.
Print Assumptions C45_ignores_strides.

Example C45_case :
  let a := tn (mkShape 2 1 1) [1;2]%Z in let b := tn (mkShape 2 1 1) [1;3]%Z in
  let n := mkTensor (mkStride 1 1 1) (mkShape 1 1 1) [b32 2143289344] in
  wf a /\ wf b /\ tensor_eqb a a = true /\ tensor_eqb a b = false /\ tensor_eqb n n = false.
Proof. split; [demo_wf|]. split; [demo_wf|]. split; [|split]; vm_compute; reflexivity. Qed.

(** ** C48, f32 part *)
Theorem C48_f32_not_negative : forall e (t : tensor f32), f32_gtb f32_zero (@get_norm f32 (f32_arith e) t) = false.
Proof. exact norm_not_negative. Qed.
Print Assumptions C48_f32_not_negative.

Example C48_f32_case : bits (get_norm (tn (mkShape 2 1 1) [3;4]%Z)) = bits (f32_of_Z 5).
Proof. vm_compute; reflexivity. Qed.
