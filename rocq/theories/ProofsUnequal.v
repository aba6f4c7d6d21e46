(** * When `!=` holds *)
From Verif Require Import Base Arith Helper Tensor Spec ProofsFloat.

Lemma tensor_neb_items : forall F (AR : Arith F) bm (a b : tensor F), wf a -> wf b ->
  (tensor_neb a b = false <->
   tshape a = tshape b /\ forall i j k, in_shape (tshape a) i j k ->
      exists x y, get_item bm a (mkIndex i j k) = Done x /\ get_item bm b (mkIndex i j k) = Done y /\ feqb x y = true).
Proof.
  intros F AR bm a b Wa Wb. rewrite <- (tensor_eqb_items bm a b Wa Wb). unfold tensor_neb. destruct (tensor_eqb a b); cbn; intuition congruence.
Qed.
