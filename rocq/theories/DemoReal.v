(** * Real tensors for the examples *)
From Coq Require Import Reals Lra.
From Verif Require Import Base Arith Helper Tensor Spec Loops TensorFacts ProofsTensor RealArith Demo.

Definition rt (s : shape) (l : list R) : tensor R := mkTensor (mkStride 1 (di s) (di s * dj s)) s l.

#[export] Instance demo_R : Arith R := R_arith (-1000)%R.

Ltac demo_shaped := split; [apply wfb_wf; vm_compute; reflexivity|reflexivity].
Ltac demo_rhold := apply demo_holds; vm_compute; reflexivity.

(** Run the model on reals, leaving their arithmetic alone. *)
Ltac run_R := cbv - [Rplus Rmult Rminus Ropp IZR Rlt_dec Req_EM_T Rmax Rdiv exp sqrt].
