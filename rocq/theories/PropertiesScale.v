(** * Properties: powers of two do not round *)
From Coq Require Import Reals Lra ZifyBool ZifyNat ZifyN.
From Verif Require Import Base Arith Helper Tensor Network Bincode Serial Float32 Spec SpecLayer SpecNet SpecReal SpecError SpecScale ProofsScale.
From Verif Require Import Demo DemoNet DemoScale.

(** ** C101 *)
Theorem C101_scaled : forall e bm c d (n n' : network f32) X X' x x', let AR := f32_arith e in
  well_built bm n -> well_built bm n' -> layers n <> [] -> scaled_layers bm c d (map params_of (layers n)) (map params_of (layers n')) ->
  holds bm X (net_input_shape n) x -> holds bm X' (net_input_shape n) x' -> net_input_shape n' = net_input_shape n -> scaled_on c (net_input_shape n) x x' ->
  in_range bm (map params_of (layers n)) X -> in_range bm (map params_of (layers n')) X' ->
  exists n1 n1' Y Y' y y', infer bm n X = Done (n1, Ok tt) /\ infer bm n' X' = Done (n1', Ok tt) /\ get_output n1 = Done (Ok Y) /\ get_output n1' = Done (Ok Y')
    /\ holds bm Y (net_output_shape n) y /\ holds bm Y' (net_output_shape n) y' /\ scaled_on d (net_output_shape n) y y'.
Proof. exact network_scaled. Qed.
Print Assumptions C101_scaled.

(** Hidden values may be scaled without any change to the output, not even in the last bit. *)
Theorem C101_same_bits : forall e bm (n n' : network f32) (X : tensor f32), let AR := f32_arith e in
  well_built bm n -> well_built bm n' -> layers n <> [] -> scaled_layers bm 0 0 (map params_of (layers n)) (map params_of (layers n')) ->
  wf X -> tshape X = net_input_shape n -> net_input_shape n' = net_input_shape n -> Forall (fun v => fin v = true) (data X) ->
  in_range bm (map params_of (layers n)) X -> in_range bm (map params_of (layers n')) X ->
  exists n1 n1' Y, infer bm n X = Done (n1, Ok tt) /\ infer bm n' X = Done (n1', Ok tt) /\ get_output n1 = Done (Ok Y) /\ get_output n1' = Done (Ok Y).
Proof. exact network_same_bits. Qed.
Print Assumptions C101_same_bits.

(** Three networks of a convolution and a fully connected layer. Against the first one, the second is given twice the image and has 8 times the hidden and 4 times
    the output values; the third has 8 times the hidden values. The products are rounded: they do not have 24 bits. *)
Example C101_case : exists n n2 n3,
  run_all Debug (network_new Inference) (z_ops z_k1 7 z_w1 z_b1) = Some n
  /\ run_all Debug (network_new Inference) (z_ops (map (Z.mul 4) z_k1) 56 [4; -8; 12; 16]%Z [4; -4]%Z) = Some n2
  /\ run_all Debug (network_new Inference) (z_ops (map (Z.mul 8) z_k1) 56 [1; -2; 3; 4]%Z z_b1) = Some n3
  /\ (well_built Debug n /\ well_built Debug n2 /\ well_built Debug n3 /\ layers n <> [])
  /\ net_input_shape n = mkShape 4 2 1 /\ net_input_shape n2 = net_input_shape n /\ net_input_shape n3 = net_input_shape n
  /\ scaled_layers Debug 1 2 (map params_of (layers n)) (map params_of (layers n2)) /\ scaled_layers Debug 0 0 (map params_of (layers n)) (map params_of (layers n3))
  /\ holds Debug (z_image 1) (mkShape 4 2 1) (at_ (z_image 1)) /\ holds Debug (z_image 2) (mkShape 4 2 1) (at_ (z_image 2))
  /\ scaled_on 1 (mkShape 4 2 1) (at_ (z_image 1)) (at_ (z_image 2))
  /\ in_range Debug (map params_of (layers n)) (z_image 1) /\ in_range Debug (map params_of (layers n2)) (z_image 2) /\ in_range Debug (map params_of (layers n3)) (z_image 1)
  /\ bits (fmul (f32_of_Z 3) (f32_of_Z 16777215)) = bits (f32_of_Z 50331644).
Proof.
  destruct (z_built z_k1 7 z_w1 z_b1 eq_refl eq_refl eq_refl) as (n & E1 & W1 & N1 & S1 & P1).
  destruct (z_built (map (Z.mul 4) z_k1) 56 [4; -8; 12; 16]%Z [4; -4]%Z eq_refl eq_refl eq_refl) as (n2 & E2 & W2 & _ & S2 & P2).
  destruct (z_built (map (Z.mul 8) z_k1) 56 [1; -2; 3; 4]%Z z_b1 eq_refl eq_refl eq_refl) as (n3 & E3 & W3 & _ & S3 & P3).
  exists n, n2, n3. rewrite P1, P2, P3, S1, S2, S3. destruct z_scaled as (Z1 & Z2). split; [exact E1|]. split; [exact E2|]. split; [exact E3|]. split; [auto|].
  do 3 (split; [reflexivity|]). split; [exact Z1|]. split; [exact Z2|]. split; [demo_hold|]. split; [demo_hold|].
  split; [intros i j c Hin; apply scaledb_scaled; revert i j c Hin; apply (all_cells_in _ (fun i j c => scaledb 1 (at_ (z_image 1) i j c) (at_ (z_image 2) i j c))); vm_compute; reflexivity|].
  do 3 (split; [apply z_range; vm_compute; reflexivity|]). vm_compute; reflexivity.
Qed.
