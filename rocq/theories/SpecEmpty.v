(** * Vocabulary for C83 *)
From Verif Require Import Base Arith Helper Tensor Network.
Local Open Scope N_scope.

(** A tensor of shape (1, 1, 1). *)
Definition single {F} (v : F) : tensor F := mkTensor (mkStride 1 1 1) (mkShape 1 1 1) [v].

(** A network of this layer alone answers [x] with [y]. *)
Definition answers {F} {AR : Arith F} bm st (l : layer F) (x y : F) : Prop :=
  exists n n', add_layer bm (network_new st) l = Done (n, Ok tt) /\ infer bm n (single x) = Done (n', Ok tt) /\ get_output n' = Done (Ok (single y)).
