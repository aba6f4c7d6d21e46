(** * C53, C56: f32 results against exact arithmetic *)
From Coq Require Import Reals Lra.
From Verif Require Import Base Arith Helper Tensor Convolution FullyConnected Float32 Spec SpecLayer SpecReal SpecTrain SpecError.
From Verif Require Import ProofsError Demo DemoReal DemoTrain.
Local Open Scope R_scope.

(** ** C53 *)
Theorem C53_matrix_multiply : forall e bm (t1 t2 r : tensor f32) s1 s2 sr f1 f2,
  let AR := f32_arith e in
  holds bm t1 s1 f1 -> holds bm t2 s2 f2 -> shaped r sr -> mm_shapes s1 s2 sr ->
  exists r' g, matrix_multiply bm t1 t2 r = Done r' /\ holds bm r' sr g
    /\ forall i j k, in_shape sr i j k -> fin (g i j k) = true ->
       Rabs (real (g i j k) - Rsum (map (fun p => real (f1 i p k) * real (f2 p j k)) (upto (dj s1))))
       <= bound (N.to_nat (dj s1)) (Rsum (map (fun p => Rabs (real (f1 i p k) * real (f2 p j k))) (upto (dj s1)))).
Proof. exact matrix_multiply_error. Qed.
Print Assumptions C53_matrix_multiply.

(** 2^24 * 1 + 1 * 1 rounds to 2^24: an error of 1. *)
Example C53_case :
  let a := tn (mkShape 1 2 1) [16777216;1]%Z in let b := tn (mkShape 2 1 1) [1;1]%Z in
  holds Debug a (mkShape 1 2 1) (at_ a) /\ holds Debug b (mkShape 2 1 1) (at_ b) /\ mm_shapes (mkShape 1 2 1) (mkShape 2 1 1) (mkShape 1 1 1)
  /\ out1 (matrix_multiply Debug a b (tn (mkShape 1 1 1) [7]%Z)) = Some (ints [16777216]%Z) /\ fin (f32_of_Z 16777216) = true.
Proof. cbv zeta. split; [demo_hold|]. split; [demo_hold|]. split; [repeat split|]. split; vm_compute; reflexivity. Qed.

(** ** C56 *)
Theorem C56_convolution : forall e bm (image kernel bias r : tensor f32) s ks bs rs f h bv stride ch,
  let AR := f32_arith e in
  holds bm image s f -> holds bm kernel ks h -> shaped bias bs -> shaped r rs ->
  get_item bm bias (mkIndex 0 0 0) = Done bv -> conv_ok s ks stride rs ch -> at_most_one bs ->
  exists o g, convolution_bias bm image kernel bias stride r ch = Done (o, Ok tt) /\ holds bm o rs g
    /\ forall i j, fin (g i j ch) = true ->
       Rabs (real (g i j ch) - (Rsum (map (fun '(a, b, c) => real (f (i * stride + a)%N (j * stride + b)%N c) * real (h a b c)) (cells ks)) + real bv))
       <= bound_biased (N.to_nat (di ks * dj ks * dk ks))
            (Rsum (map (fun '(a, b, c) => Rabs (real (f (i * stride + a)%N (j * stride + b)%N c) * real (h a b c))) (cells ks))) (Rabs (real bv)).
Proof. exact convolution_error. Qed.
Print Assumptions C56_convolution.

(** Fully connected layers: forward outputs relu of a number this close to the exact row sum plus bias. *)
Theorem C56_fully_connected : forall e bm (l : fc_layer f32) m n w b x X Y0,
  let AR := f32_arith e in
  fc_ok m n l -> holds bm (fc_weights l) (mkShape m n 1) w -> holds bm (fc_bias l) (mkShape m 1 1) b ->
  holds bm X (mkShape n 1 1) x -> shaped Y0 (mkShape m 1 1) ->
  exists l' Y z, fc_forward bm l X Y0 = Done (l', Y, Ok tt) /\ holds bm Y (mkShape m 1 1) (fun i _ _ => relu (z i))
    /\ forall i, fin (z i) = true ->
       Rabs (real (z i) - (Rsum (map (fun p => real (w i p 0%N) * real (x p 0%N 0%N)) (upto n)) + real (b i 0%N 0%N)))
       <= bound_biased (N.to_nat n) (Rsum (map (fun p => Rabs (real (w i p 0%N) * real (x p 0%N 0%N))) (upto n))) (Rabs (real (b i 0%N 0%N))).
Proof. exact fc_forward_error. Qed.
Print Assumptions C56_fully_connected.

(** 2^24 * 1 + 1 * 1 with bias 1: each addition loses its 1. *)
Example C56_case :
  let s := mkShape 2 1 1 in let one := mkShape 1 1 1 in
  conv_ok s s 1 one 0 /\ at_most_one one /\ get_item Debug (tn one [1]%Z) (mkIndex 0 0 0) = Done (f32_of_Z 1)
  /\ out2 (convolution_bias Debug (tn s [16777216;1]%Z) (tn s [1;1]%Z) (tn one [1]%Z) 1 (tn one [7]%Z) 0) = Some (ints [16777216]%Z)
  /\ fc_ok 1 2 t_fc.
Proof.
  cbv zeta. split; [unfold conv_ok, tiles; cbn; repeat split; lia|]. split; [unfold at_most_one; cbn; lia|].
  split; [reflexivity|]. split; [vm_compute; reflexivity|exact t_fc_ok].
Qed.
