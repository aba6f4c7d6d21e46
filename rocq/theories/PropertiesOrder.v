(** * C74: the order of a batch *)
From Coq Require Import Reals Permutation.
From Verif Require Import Base Arith Helper Tensor Network Float32 RealArith Spec SpecLayer SpecTrain SpecReal SpecError SpecRound.
From Verif Require Import ProofsOrder Demo DemoReal DemoNet DemoTrain DemoGrad DemoRound.
Local Open Scope R_scope.

Theorem C74_exact : forall low bm m n (ops ops' : list (train_op R)) pairs pairs' (l : fc_layer R),
  let AR := R_arith low in
  fc_ok m n l -> fc_run_state l = Training ->
  Forall2 (fun op p => pair_holds bm m n op (Some p)) ops pairs -> Forall2 (fun op p => pair_holds bm m n op (Some p)) ops' pairs' ->
  Permutation pairs pairs' ->
  exists l1 l2, train_all bm (LFC l) ops = Done (LFC l1, Ok tt) /\ train_all bm (LFC l) ops' = Done (LFC l2, Ok tt)
    /\ fc_weights_gradients l1 = fc_weights_gradients l2 /\ fc_bias_gradients l1 = fc_bias_gradients l2.
Proof. exact order_exact. Qed.
Print Assumptions C74_exact.

Theorem C74_rounded : forall e bm m n (ops ops' : list (train_op f32)) (pairs pairs' : list (values * values)) (l : fc_layer f32) w b wg bg,
  let AR := f32_arith e in
  fc_ok m n l -> fc_run_state l = Training ->
  holds bm (fc_weights l) (mkShape m n 1) w -> holds bm (fc_bias l) (mkShape m 1 1) b ->
  holds bm (fc_weights_gradients l) (mkShape m n 1) wg -> holds bm (fc_bias_gradients l) (mkShape m 1 1) bg ->
  Forall2 (fun op p => pair_holds bm m n op (Some p)) ops pairs -> Forall2 (fun op p => pair_holds bm m n op (Some p)) ops' pairs' ->
  Permutation pairs pairs' ->
  exists l1 l2 w1 w2 b1 b2, train_all bm (LFC l) ops = Done (LFC l1, Ok tt) /\ train_all bm (LFC l) ops' = Done (LFC l2, Ok tt)
    /\ holds bm (fc_weights_gradients l1) (mkShape m n 1) w1 /\ holds bm (fc_weights_gradients l2) (mkShape m n 1) w2
    /\ holds bm (fc_bias_gradients l1) (mkShape m 1 1) b1 /\ holds bm (fc_bias_gradients l2) (mkShape m 1 1) b2
    /\ (forall i j, (i < m)%N -> (j < n)%N -> fin (w1 i j 0%N) = true -> fin (w2 i j 0%N) = true ->
          Rabs (real (w1 i j 0%N) - real (w2 i j 0%N))
          <= 2 * bound (1 + length pairs) (Rabs (real (wg i j 0%N)) + Rsum (map (fun p => Rabs (passed e n w b i p * real (fst p j 0%N 0%N))) pairs)))
    /\ (forall i, (i < m)%N -> fin (b1 i 0%N 0%N) = true -> fin (b2 i 0%N 0%N) = true ->
          Rabs (real (b1 i 0%N 0%N) - real (b2 i 0%N 0%N))
          <= 2 * (((1 + u) ^ length pairs - 1) * (Rabs (real (bg i 0%N 0%N)) + Rsum (map (fun p => Rabs (passed e n w b i p)) pairs)))).
Proof. exact order_rounded. Qed.
Print Assumptions C74_rounded.

(** In f32 the bits do depend on the order: 2^24 + 1 + 1 against 1 + 1 + 2^24. *)
Example C74_case : let batch := [t_pair 16777216 1 1; t_pair 1 2 1; t_pair 1 0 1]%Z in
  fc_ok 1 2 t_fc /\ (exists pairs, Forall2 (fun op p => pair_holds Debug 1 2 op (Some p)) batch pairs)
  /\ (exists pairs, Forall2 (fun op p => pair_holds Debug 1 2 op (Some p)) (rev batch) pairs)
  /\ fc_grads (train_all Debug (LFC t_fc) batch) = Some (ints [16777216;3]%Z, ints [3]%Z)
  /\ fc_grads (train_all Debug (LFC t_fc) (rev batch)) = Some (ints [16777218;3]%Z, ints [3]%Z).
Proof.
  cbv zeta. cbn [rev app]. split; [exact t_fc_ok|]. split; [|split; [|split; vm_compute; reflexivity]].
  1: exists (map (fun op => match op with TPair x _ g _ => (at_ x, at_ g) | TClear => (at_ t_x, at_ t_y) end) [t_pair 16777216 1 1; t_pair 1 2 1; t_pair 1 0 1]%Z).
  2: exists (map (fun op => match op with TPair x _ g _ => (at_ x, at_ g) | TClear => (at_ t_x, at_ t_y) end) [t_pair 1 0 1; t_pair 1 2 1; t_pair 16777216 1 1]%Z).
  all: repeat (constructor; [split; [demo_hold|split; [demo_hold|split; (split; [demo_wf|reflexivity])]]|]); constructor.
Qed.

(** The layer of C25 over the reals: inputs (1, 2), (3, 0) with gradients (1, 1), (2, -1), in both orders. *)
Example C74_exact_case : let pair a b g h := TPair (rt (mkShape 2 1 1) [a; b]) zero2 (rt (mkShape 2 1 1) [g; h]) zero2 in
  fc_ok 2 2 r_fc /\ fc_run_state r_fc = Training
  /\ exists p q, Forall2 (fun op p => pair_holds Debug 2 2 op (Some p)) [pair 1 2 1 1; pair 3 0 2 (-1)] [p; q]
       /\ Forall2 (fun op p => pair_holds Debug 2 2 op (Some p)) [pair 3 0 2 (-1); pair 1 2 1 1] [q; p].
Proof.
  cbv zeta. split; [exact r_fc_ok|]. split; [reflexivity|].
  exists (at_ (rt (mkShape 2 1 1) [1; 2]), at_ (rt (mkShape 2 1 1) [1; 1])), (at_ (rt (mkShape 2 1 1) [3; 0]), at_ (rt (mkShape 2 1 1) [2; -1])).
  split; repeat (constructor; [split; [demo_rhold|split; [demo_rhold|split; demo_shaped]]|]); constructor.
Qed.
