(** * C21, C48 - C50: algebra in exact arithmetic *)
From Coq Require Import Reals Lra.
From Verif Require Import Base Arith Helper Tensor Convolution Float32 Spec SpecLayer SpecReal SpecError RealArith.
From Verif Require Import ProofsReal ProofsError Demo DemoReal.
Local Open Scope R_scope.

(** ** C21 *)
Theorem C21_value : forall F (AR : Arith F) bm (t o : tensor F) s f, holds bm t s f -> shaped o s ->
  exists o', softmax t o = Done o'
    /\ holds bm o' s (fun i j k => fdiv (fexp (f i j k)) (sum (map (fun '(i, j, k) => fexp (f i j k)) (cells s)))).
Proof. exact @softmax_value. Qed.
Print Assumptions C21_value.

Theorem C21_mismatch_unchanged : forall F (AR : Arith F) (t o : tensor F), tshape t <> tshape o -> softmax t o = Done o.
Proof. exact @softmax_mismatch. Qed.
Print Assumptions C21_mismatch_unchanged.

Theorem C21_exact_distribution : forall m bm (t o : tensor R) s f,
  let AR := R_arith m in
  holds bm t s f -> shaped o s -> (0 < di s * dj s * dk s)%N ->
  exists o' g, softmax t o = Done o' /\ holds bm o' s g /\ (forall i j k, in_shape s i j k -> 0 < g i j k)
    /\ Rsum (map (fun '(i, j, k) => g i j k) (cells s)) = 1.
Proof. exact softmax_distribution. Qed.
Print Assumptions C21_exact_distribution.

(** In f32, for any [exp] that never returns a number below zero. *)
Theorem C21_f32_unit_interval : forall e bm (t o : tensor f32) s f,
  let AR := f32_arith e in
  (forall x, f32_gtb f32_zero (env_exp e x) = false) ->
  holds bm t s f -> shaped o s ->
  let total := sum (map (fun '(i, j, k) => fexp (f i j k)) (cells s)) in
  fin total = true -> real total <> 0 ->
  exists o' g, softmax t o = Done o' /\ holds bm o' s g
    /\ forall i j k, in_shape s i j k -> fin (g i j k) = true /\ 0 <= real (g i j k) <= 1.
Proof. exact softmax_unit. Qed.
Print Assumptions C21_f32_unit_interval.

(** exp 0 = 1 twice: 1/2 each; the exact case likewise. *)
Example C21_case : (forall x, f32_gtb f32_zero (env_exp demo_env x) = false)
  /\ shaped (tn (mkShape 2 1 1) [0;0]%Z) (mkShape 2 1 1)
  /\ out1 (softmax (tn (mkShape 2 1 1) [0;0]%Z) (tn (mkShape 2 1 1) [7;8]%Z)) = Some [1056964608; 1056964608]%Z
  /\ shaped (rt (mkShape 2 1 1) [3;5]) (mkShape 2 1 1).
Proof.
  split.
  { intros x. cbn [env_exp demo_env]. unfold demo_exp. repeat match goal with |- context [match ?z with _ => _ end] => destruct z; try (vm_compute; reflexivity) end. }
  split; [demo_shaped|]. split; [vm_compute; reflexivity|demo_shaped].
Qed.

(** ** C48, exact part *)
Theorem C48_norm : forall m bm (t : tensor R) s f, let AR := R_arith m in holds bm t s f ->
  get_norm t = sqrt (Rsum (map (fun '(i, j, k) => f i j k * f i j k) (cells s))).
Proof. exact norm_cells. Qed.
Print Assumptions C48_norm.

Theorem C48_zero_iff : forall m bm (t : tensor R) s f, let AR := R_arith m in holds bm t s f ->
  (get_norm t = 0 <-> forall i j k, in_shape s i j k -> f i j k = 0).
Proof. exact norm_zero. Qed.
Print Assumptions C48_zero_iff.

Theorem C48_homogeneous : forall m bm (t : tensor R) s f c, let AR := R_arith m in holds bm t s f ->
  get_norm (scale_self t c) = Rabs c * get_norm t.
Proof. exact norm_scale. Qed.
Print Assumptions C48_homogeneous.

Example C48_case : holds Debug (rt (mkShape 2 1 1) [3;4]) (mkShape 2 1 1) (at_ (rt (mkShape 2 1 1) [3;4]))
  /\ get_norm (rt (mkShape 2 1 1) [3;4]) = 5.
Proof.
  split; [demo_rhold|]. unfold get_norm, rt, data, demo_R, R_arith. cbn.
  replace (0 + 3 * 3 + 4 * 4) with (5 * 5) by ring. apply sqrt_square. lra.
Qed.

(** ** C49 *)
Theorem C49_associative : forall m bm n p q r d (A B C ab bc r1 r2 : tensor R),
  let AR := R_arith m in
  shaped A (mkShape n p d) -> shaped B (mkShape p q d) -> shaped C (mkShape q r d) ->
  shaped ab (mkShape n q d) -> shaped bc (mkShape p r d) -> shaped r1 (mkShape n r d) -> shaped r2 (mkShape n r d) ->
  exists AB BC P, matrix_multiply bm A B ab = Done AB /\ matrix_multiply bm B C bc = Done BC
    /\ matrix_multiply bm AB C r1 = Done P /\ matrix_multiply bm A BC r2 = Done P.
Proof. exact product_associative. Qed.
Print Assumptions C49_associative.

Theorem C49_distributes : forall m bm n p q d (A B C ab ac bc r r' : tensor R),
  let AR := R_arith m in
  shaped A (mkShape n p d) -> shaped B (mkShape p q d) -> shaped C (mkShape p q d) -> shaped bc (mkShape p q d) ->
  shaped ab (mkShape n q d) -> shaped ac (mkShape n q d) -> shaped r (mkShape n q d) -> shaped r' (mkShape n q d) ->
  exists AB AC, matrix_multiply bm A B ab = Done AB /\ matrix_multiply bm A C ac = Done AC
    /\ matrix_multiply bm A (add B C bc) r = Done (add AB AC r').
Proof. exact product_distributes. Qed.
Print Assumptions C49_distributes.

Theorem C49_distributes_right : forall m bm n p q d (A B C ac bc ab r r' : tensor R),
  let AR := R_arith m in
  shaped A (mkShape n p d) -> shaped B (mkShape n p d) -> shaped C (mkShape p q d) -> shaped ab (mkShape n p d) ->
  shaped ac (mkShape n q d) -> shaped bc (mkShape n q d) -> shaped r (mkShape n q d) -> shaped r' (mkShape n q d) ->
  exists AC BC, matrix_multiply bm A C ac = Done AC /\ matrix_multiply bm B C bc = Done BC
    /\ matrix_multiply bm (add A B ab) C r = Done (add AC BC r').
Proof. exact product_distributes_right. Qed.
Print Assumptions C49_distributes_right.

Theorem C49_transpose : forall m bm n p q d (A B ab at_ bt abt r : tensor R),
  let AR := R_arith m in
  shaped A (mkShape n p d) -> shaped B (mkShape p q d) -> shaped ab (mkShape n q d) ->
  shaped at_ (mkShape p n d) -> shaped bt (mkShape q p d) -> shaped abt (mkShape q n d) -> shaped r (mkShape q n d) ->
  exists AB At Bt P, matrix_multiply bm A B ab = Done AB /\ transpose_ij bm A at_ = Done (At, Ok tt) /\ transpose_ij bm B bt = Done (Bt, Ok tt)
    /\ transpose_ij bm AB abt = Done (P, Ok tt) /\ matrix_multiply bm Bt At r = Done P.
Proof. exact product_transpose. Qed.
Print Assumptions C49_transpose.

(** (1 2) * (3 4)^T * (5) = 55, both ways round. *)
Example C49_case :
  let A := rt (mkShape 1 2 1) [1;2] in let B := rt (mkShape 2 1 1) [3;4] in let C := rt (mkShape 1 1 1) [5] in
  shaped A (mkShape 1 2 1) /\ shaped B (mkShape 2 1 1) /\ shaped C (mkShape 1 1 1)
  /\ exists AB P, matrix_multiply Debug A B (rt (mkShape 1 1 1) [9]) = Done AB
     /\ matrix_multiply Debug AB C (rt (mkShape 1 1 1) [9]) = Done P /\ data P = [(1 * 3 + 2 * 4) * 5].
Proof.
  cbv zeta. split; [demo_shaped|]. split; [demo_shaped|]. split; [demo_shaped|].
  eexists. eexists. split; [run_R; reflexivity|]. split; [run_R; reflexivity|]. run_R.
  match goal with |- [?a] = [?b] => replace a with b by ring; reflexivity end.
Qed.

(** ** C50 *)
Theorem C50_additive_in_image : forall m bm (im1 im2 buf kernel bias r1 r2 r3 : tensor R) s ks bs rs stride ch,
  let AR := R_arith m in
  shaped im1 s -> shaped im2 s -> shaped buf s -> shaped kernel ks -> holds bm bias bs (fun _ _ _ => 0) -> at_most_one bs ->
  shaped r1 rs -> shaped r2 rs -> shaped r3 rs -> conv_ok s ks stride rs ch ->
  exists o1 o2 o3 g1 g2 g3, convolution_bias bm im1 kernel bias stride r1 ch = Done (o1, Ok tt)
    /\ convolution_bias bm im2 kernel bias stride r2 ch = Done (o2, Ok tt)
    /\ convolution_bias bm (add im1 im2 buf) kernel bias stride r3 ch = Done (o3, Ok tt)
    /\ holds bm o1 rs g1 /\ holds bm o2 rs g2 /\ holds bm o3 rs g3
    /\ forall i j, g3 i j ch = g1 i j ch + g2 i j ch.
Proof. exact conv_image_additive. Qed.
Print Assumptions C50_additive_in_image.

Theorem C50_additive_in_kernel : forall m bm (im k1 k2 buf bias r1 r2 r3 : tensor R) s ks bs rs stride ch,
  let AR := R_arith m in
  shaped im s -> shaped k1 ks -> shaped k2 ks -> shaped buf ks -> holds bm bias bs (fun _ _ _ => 0) -> at_most_one bs ->
  shaped r1 rs -> shaped r2 rs -> shaped r3 rs -> conv_ok s ks stride rs ch ->
  exists o1 o2 o3 g1 g2 g3, convolution_bias bm im k1 bias stride r1 ch = Done (o1, Ok tt)
    /\ convolution_bias bm im k2 bias stride r2 ch = Done (o2, Ok tt)
    /\ convolution_bias bm im (add k1 k2 buf) bias stride r3 ch = Done (o3, Ok tt)
    /\ holds bm o1 rs g1 /\ holds bm o2 rs g2 /\ holds bm o3 rs g3
    /\ forall i j, g3 i j ch = g1 i j ch + g2 i j ch.
Proof. exact conv_kernel_additive. Qed.
Print Assumptions C50_additive_in_kernel.

Theorem C50_homogeneous : forall m bm (im kernel bufi bufk bias r1 r2 r3 : tensor R) s ks bs rs stride ch z,
  let AR := R_arith m in
  shaped im s -> shaped kernel ks -> shaped bufi s -> shaped bufk ks -> holds bm bias bs (fun _ _ _ => 0) -> at_most_one bs ->
  shaped r1 rs -> shaped r2 rs -> shaped r3 rs -> conv_ok s ks stride rs ch ->
  exists o1 o2 o3 g1 g2 g3, convolution_bias bm im kernel bias stride r1 ch = Done (o1, Ok tt)
    /\ convolution_bias bm (scale im z bufi) kernel bias stride r2 ch = Done (o2, Ok tt)
    /\ convolution_bias bm im (scale kernel z bufk) bias stride r3 ch = Done (o3, Ok tt)
    /\ holds bm o1 rs g1 /\ holds bm o2 rs g2 /\ holds bm o3 rs g3
    /\ forall i j, g2 i j ch = g1 i j ch * z /\ g3 i j ch = g1 i j ch * z.
Proof. exact conv_homogeneous. Qed.
Print Assumptions C50_homogeneous.

(** Moving the image by a stride-multiple moves the output; true of any arithmetic, f32 included. *)
Theorem C50_shift_covariant : forall F (AR : Arith F) bm (im im' kernel bias r r' : tensor F) s ks bs rs f f' stride ch a b,
  holds bm im s f -> holds bm im' s f' -> shaped kernel ks -> shaped bias bs -> at_most_one bs ->
  shaped r rs -> shaped r' rs -> conv_ok s ks stride rs ch ->
  (forall i j k, in_shape s (i + a * stride) (j + b * stride) k -> f' i j k = f (i + a * stride) (j + b * stride) k)%N ->
  exists o o' g g', convolution_bias bm im kernel bias stride r ch = Done (o, Ok tt)
    /\ convolution_bias bm im' kernel bias stride r' ch = Done (o', Ok tt) /\ holds bm o rs g /\ holds bm o' rs g'
    /\ forall i j, (i + a < di rs -> j + b < dj rs -> g' i j ch = g (i + a) (j + b) ch)%N.
Proof. exact @conv_shift. Qed.
Print Assumptions C50_shift_covariant.

(** A row of three pixels under a kernel of two; the second image is the first moved by one. *)
Example C50_case :
  let s := mkShape 3 1 1 in let ks := mkShape 2 1 1 in let one := mkShape 1 1 1 in
  conv_ok s ks 1 (mkShape 2 1 1) 0 /\ at_most_one one
  /\ holds Debug (rt one [0]) one (fun _ _ _ => 0) /\ shaped (rt s [1;2;3]) s /\ shaped (rt ks [4;5]) ks
  /\ out2 (convolution_bias Debug (tn s [1;2;3]%Z) (tn ks [4;5]%Z) (tn one [0]%Z) 1 (tn (mkShape 2 1 1) [9;9]%Z) 0) = Some (ints [14;23]%Z)
  /\ out2 (convolution_bias Debug (tn s [2;3;7]%Z) (tn ks [4;5]%Z) (tn one [0]%Z) 1 (tn (mkShape 2 1 1) [9;9]%Z) 0) = Some (ints [23;47]%Z).
Proof.
  cbv zeta. split; [unfold conv_ok, tiles; cbn; repeat split; lia|]. split; [unfold at_most_one; cbn; lia|].
  split. { eapply LayerFacts.holds_ext; [|demo_rhold]. intros i j k (Hi & Hj & Hk). cbn in Hi, Hj, Hk. assert (i = 0 /\ j = 0 /\ k = 0)%N as (-> & -> & ->) by lia. reflexivity. }
  split; [demo_shaped|]. split; [demo_shaped|]. split; vm_compute; reflexivity.
Qed.
