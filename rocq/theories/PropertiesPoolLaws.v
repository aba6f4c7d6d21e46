(** * C78, C79: relu and pooling commute; pooling twice is pooling once *)
From Flocq Require Import IEEE754.Binary.
From Verif Require Import Base Arith Helper Tensor Network Spec SpecLayer SpecF32 Float32 ProofsReluPool ProofsPoolPool Demo DemoReal.
Local Open Scope N_scope.

(** ** C78 *)
Theorem C78_relu_pool : forall e bm (image m1 r m2 : tensor f32) s rs mask stride,
  let AR := f32_arith e in
  shaped image s -> shaped m1 s -> shaped r rs -> shaped m2 rs -> pool_ok s mask stride rs -> 0 < di mask -> 0 < dj mask ->
  exists image' m1' a m2' b, relu_self_and_store_mask image m1 = (image', m1', Ok tt) /\ max_pool bm image' mask stride r = Done a
    /\ max_pool bm image mask stride r = Done b /\ relu_self_and_store_mask b m2 = (a, m2', Ok tt).
Proof. exact relu_pool. Qed.
Print Assumptions C78_relu_pool.

(** Four windows: a NaN with 2; a NaN with -3; two negative numbers; -0 with +0. *)
Example C78_case :
  let image := mkTensor (mkStride 1 2 8) (mkShape 2 4 1)
    [b32 2143289344; f32_of_Z 2; b32 2143289344; f32_of_Z (-3); f32_of_Z (-5); f32_of_Z (-4); Binary.B754_zero 24 128 true; f32_zero] in
  let r := tn (mkShape 1 4 1) [9;9;9;9]%Z in
  shaped image (mkShape 2 4 1) /\ shaped r (mkShape 1 4 1) /\ pool_ok (mkShape 2 4 1) (mkShape 2 1 1) 1 (mkShape 1 4 1)
  /\ out1 (max_pool Debug image (mkShape 2 1 1) 1 r) = Some (map bits [f32_of_Z 2; f32_of_Z (-3); f32_of_Z (-4); Binary.B754_zero 24 128 true])
  /\ (let '(t, _, _) := relu_self_and_store_mask image image in out1 (max_pool Debug t (mkShape 2 1 1) 1 r)) = Some (ints [2;0;0;0]%Z).
Proof.
  cbv zeta. split; [demo_shaped|]. split; [demo_shaped|]. split; [|split; vm_compute; reflexivity].
  repeat split; vm_compute; try reflexivity; discriminate.
Qed.

(** ** C79 *)
Theorem C79_pool_pool : forall e bm (image r1 r2 : tensor f32) s rs1 rs2 f g1 g2 m1 s1 m2 s2,
  let AR := f32_arith e in
  holds bm image s f -> holds bm r1 rs1 g1 -> holds bm r2 rs2 g2 -> pool_ok s m1 s1 rs1 -> pool_ok rs1 m2 s2 rs2 ->
  s1 <= di m1 -> s1 <= dj m1 -> 0 < di m2 -> 0 < dj m2 ->
  let m := mkShape ((di m2 - 1) * s1 + di m1) ((dj m2 - 1) * s1 + dj m1) (dk m1) in
  pool_ok s m (s1 * s2) rs2
  /\ exists a b, max_pool bm image m1 s1 r1 = Done a /\ max_pool bm a m2 s2 r2 = Done b /\ shaped b rs2
     /\ forall i j k, in_shape rs2 i j k -> exists v, get_item bm b (mkIndex i j k) = Done v
        /\ max_of (window_values (di m) (dj m) (s1 * s2) f i j k) v.
Proof. exact pool_pool. Qed.
Print Assumptions C79_pool_pool.

(** 2 by 2 with stride 1, then 2 by 1 with stride 2, is 3 by 2 with stride 2. *)
Example C79_case :
  let image := tn (mkShape 5 2 1) [1;2;9;4;5; 6;7;-8;3;0]%Z in let r1 := tn (mkShape 4 1 1) [0;0;0;0]%Z in let r2 := tn (mkShape 2 1 1) [0;0]%Z in
  pool_ok (tshape image) (mkShape 2 2 1) 1 (tshape r1) /\ pool_ok (tshape r1) (mkShape 2 1 1) 2 (tshape r2)
  /\ out1 (bind (max_pool Debug image (mkShape 2 2 1) 1 r1) (fun a => max_pool Debug a (mkShape 2 1 1) 2 r2)) = Some (ints [9;9]%Z)
  /\ out1 (max_pool Debug image (mkShape 3 2 1) 2 r2) = Some (ints [9;9]%Z).
Proof. cbv zeta. split; [|split; [|split; vm_compute; reflexivity]]; repeat split; vm_compute; try reflexivity; discriminate. Qed.
