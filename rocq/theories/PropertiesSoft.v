(** * C63: softmax keeps the order of its inputs and ignores a common shift *)
From Coq Require Import Reals Lra.
From Verif Require Import Base Arith Helper Tensor Float32 Spec SpecLayer SpecReal SpecError RealArith ProofsSoft Demo DemoReal.
Local Open Scope R_scope.

Theorem C63_order : forall m bm (t o : tensor R) s f, let AR := R_arith m in
  holds bm t s f -> shaped o s ->
  exists o' g, softmax t o = Done o' /\ holds bm o' s g
    /\ forall i j k i' j' k', in_shape s i j k -> in_shape s i' j' k' -> (f i j k < f i' j' k' <-> g i j k < g i' j' k').
Proof. exact softmax_order. Qed.
Print Assumptions C63_order.

Theorem C63_shift : forall m bm (t t' o o0 : tensor R) s f c, let AR := R_arith m in
  holds bm t s f -> holds bm t' s (fun i j k => f i j k + c) -> shaped o s -> shaped o0 s ->
  exists g o1 o2, softmax t o = Done o1 /\ softmax t' o0 = Done o2 /\ holds bm o1 s g /\ holds bm o2 s g.
Proof. exact softmax_shift. Qed.
Print Assumptions C63_shift.

(** In f32, for any [exp] that is nowhere below zero and keeps the order of the tensor's elements. *)
Theorem C63_f32_order : forall e bm (t o : tensor f32) s f, let AR := f32_arith e in
  (forall x, f32_gtb f32_zero (env_exp e x) = false) ->
  (forall i j k i' j' k', in_shape s i j k -> in_shape s i' j' k' -> f32_gtb (f i j k) (f i' j' k') = false ->
     f32_gtb (env_exp e (f i j k)) (env_exp e (f i' j' k')) = false) ->
  holds bm t s f -> shaped o s ->
  let total := sum (map (fun '(i, j, k) => fexp (f i j k)) (cells s)) in
  fin total = true -> real total <> 0 ->
  exists o' g, softmax t o = Done o' /\ holds bm o' s g
    /\ forall i j k i' j' k', in_shape s i j k -> in_shape s i' j' k' -> f32_gtb (f i j k) (f i' j' k') = false ->
         real (g i j k) <= real (g i' j' k').
Proof. exact softmax_f32_order. Qed.
Print Assumptions C63_f32_order.

(** Inputs 1 and 2; and softmax of 1, 2, 3 in f32. *)
Example C63_case : shaped (rt (mkShape 2 1 1) [1; 2]) (mkShape 2 1 1)
  /\ out1 (softmax (tn (mkShape 3 1 1) [1;2;3]%Z) (tn (mkShape 3 1 1) [7;8;9]%Z)) = Some [1035493875; 1048222234; 1059736891]%Z.
Proof. split; [demo_shaped|]. vm_compute. reflexivity. Qed.
