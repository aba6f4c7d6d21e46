(** * C45, the operator [!=] *)
From Verif Require Import Base Arith Helper Tensor Float32 Spec ProofsUnequal Demo.

Theorem C45_not_equal : forall F (AR : Arith F) bm (a b : tensor F), wf a -> wf b ->
  (tensor_neb a b = false <->
   tshape a = tshape b /\ forall i j k, in_shape (tshape a) i j k ->
      exists x y, get_item bm a (mkIndex i j k) = Done x /\ get_item bm b (mkIndex i j k) = Done y /\ feqb x y = true).
Proof. exact tensor_neb_items. Qed.
Print Assumptions C45_not_equal.

Example C45_not_equal_case :
  let a := tn (mkShape 2 1 1) [1;2]%Z in let b := tn (mkShape 2 1 1) [1;3]%Z in
  let n := mkTensor (mkStride 1 1 1) (mkShape 1 1 1) [b32 2143289344] in
  wf a /\ wf b /\ tensor_neb a a = false /\ tensor_neb a b = true /\ tensor_neb n n = true.
Proof. split; [demo_wf|]. split; [demo_wf|]. split; [|split]; vm_compute; reflexivity. Qed.
