(** * Concrete data for the examples of C67-C69 *)
From Verif Require Import Base Arith Helper Tensor Network Float32 Spec SpecLayer SpecModes TensorFacts Layout LayerFacts ProofsModes Demo DemoNet.

Lemma dot_zero : zeros Debug dot (mkShape 1 1 1).
Proof. assert (E : dot = of_fun (mkShape 1 1 1) (fun _ _ _ => fzero)) by (vm_compute; reflexivity). rewrite E. apply zeros_of_fun. apply allocatable_111. Qed.
