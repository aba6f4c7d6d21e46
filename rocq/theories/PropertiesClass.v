(** * C76: networks that end in a softmax layer *)
From Coq Require Import Reals.
From Flocq Require Import IEEE754.Binary.
From Verif Require Import Base Arith Helper Tensor Network Bincode Serial Float32 RealArith Spec SpecLayer SpecNet SpecReal SpecError.
From Verif Require Import Float32Facts ProofsClass Demo DemoReal DemoNet DemoGrad DemoClass.
Local Open Scope R_scope.

(** Exact arithmetic: [z] are the values before the softmax layer, [y] the outputs. *)
Theorem C76_exact : forall low (BT : Bits R) bm (n : network R) ls l (X : tensor R),
  let AR := R_arith low in
  well_built bm n -> layers n = (ls ++ [LSoftmax l])%list -> shaped X (net_input_shape n) ->
  exists n1 Z Y z y, infer bm n X = Done (n1, Ok tt) /\ get_intermediate_state n1 (len ls) = Done (Ok Z) /\ get_output n1 = Done (Ok Y)
    /\ holds bm Z (net_output_shape n) z /\ holds bm Y (net_output_shape n) y
    /\ (forall i j k, in_shape (net_output_shape n) i j k -> 0 < y i j k)
    /\ (forall i j k i' j' k', in_shape (net_output_shape n) i j k -> in_shape (net_output_shape n) i' j' k' -> (z i j k < z i' j' k' <-> y i j k < y i' j' k'))
    /\ ((exists i j k, in_shape (net_output_shape n) i j k) -> Rsum (map (fun '(i, j, k) => y i j k) (cells (net_output_shape n))) = 1).
Proof. exact @classifier_exact. Qed.
Print Assumptions C76_exact.

(** f32: the same up to rounding, for any [exp] that is nowhere below zero, if the sum of the exponentials neither overflows nor
    vanishes. Missing: sums that do; an infinite exponential gives NaN. *)
Theorem C76_rounded_partial : forall e bm (n : network f32) ls l (X : tensor f32),
  let AR := f32_arith e in
  (forall x, f32_gtb f32_zero (env_exp e x) = false) ->
  well_built bm n -> layers n = (ls ++ [LSoftmax l])%list -> shaped X (net_input_shape n) ->
  exists n1 Z Y z y, infer bm n X = Done (n1, Ok tt) /\ get_intermediate_state n1 (len ls) = Done (Ok Z) /\ get_output n1 = Done (Ok Y)
    /\ holds bm Z (net_output_shape n) z /\ holds bm Y (net_output_shape n) y
    /\ let s := net_output_shape n in
       let total := sum (map (fun '(i, j, k) => env_exp e (z i j k)) (cells s)) in
       (fin total = true -> real total <> 0 ->
          (forall i j k, in_shape s i j k -> fin (y i j k) = true /\ 0 <= real (y i j k) <= 1)
          /\ (forall i j k i' j' k', in_shape s i j k -> in_shape s i' j' k' -> f32_gtb (env_exp e (z i j k)) (env_exp e (z i' j' k')) = false ->
                real (y i j k) <= real (y i' j' k'))
          /\ let g := (1 + u) ^ length (cells s) - 1 in
             g < 1 -> Rabs (Rsum (map (fun '(i, j, k) => real (y i j k)) (cells s)) - 1) <= (g + u) / (1 - g) + INR (length (cells s)) * eta)
       /\ (forall i j k, in_shape s i j k -> env_exp e (z i j k) = B754_infinity 24 128 false -> isnan (y i j k) = true).
Proof. exact classifier_rounded. Qed.
Print Assumptions C76_rounded_partial.

(** Two units (x, y) with identity weights, then softmax: the finite input (100, 0) gives (NaN, 0). *)
Theorem C76_overflow_refuted : exists n, run_all Debug (network_new Inference) [OAdd k_fc; OAdd d_sm] = Some n
  /\ well_built Debug n
  /\ match infer Debug n (tn (mkShape 2 1 1) [100;0]%Z) with
     | Done (n1, Ok _) => match get_output n1 with
         | Done (Ok y) => map isnan (data y) = [true; false] /\ map bits (skipn 1 (data y)) = [0]%Z
         | _ => False
         end
     | _ => False
     end.
Proof.
  apply computed.
  - exact k_built.
  - vm_compute. auto.
Qed.
Print Assumptions C76_overflow_refuted.

(** The network on (1, 2): e/(e + e^2) and e^2/(e + e^2). *)
Example C76_case : (forall x, f32_gtb f32_zero (env_exp demo_env x) = false)
  /\ exists n, run_all Debug (network_new Inference) [OAdd k_fc; OAdd d_sm] = Some n
  /\ well_built Debug n
  /\ match infer Debug n (tn (mkShape 2 1 1) [1;2]%Z) with
     | Done (n1, Ok _) => match get_output n1 with
         | Done (Ok y) => tbits y = [1049211568; 1060841128]%Z
         | _ => False
         end
     | _ => False
     end.
Proof.
  split.
  { intros x. cbn [env_exp demo_env]. unfold demo_exp. repeat match goal with |- context [match ?z with _ => _ end] => destruct z; try (vm_compute; reflexivity) end. }
  apply computed.
  - exact k_built.
  - vm_compute. reflexivity.
Qed.

(** Pooling, a fully connected layer and softmax over the reals. *)
Example C76_exact_case : training_built Debug r_net /\ shaped r_x (net_input_shape r_net) /\ exists ls l, layers r_net = (ls ++ [LSoftmax l])%list.
Proof. split; [exact r_net_built|]. split; [demo_shaped|]. run_R. eexists [_; _], _. reflexivity. Qed.
