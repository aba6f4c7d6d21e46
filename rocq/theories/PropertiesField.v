(** * C75: receptive fields *)
From Verif Require Import Base Arith Helper Tensor Network Bincode Serial Float32 Spec SpecLayer SpecNet SpecField.
From Verif Require Import Float32Facts ProofsField ProofsFloat Demo DemoNet DemoMono DemoField.

(** Two networks of convolutions and pooling with the same kernels. If the inputs agree on the field of (i, j) in one image and of
    (i', j') in the other, the outputs there have the same bits. *)
Theorem C75_receptive_field : forall e bm (n n' : network f32) (X X' : tensor f32) x x' step a b,
  let AR := f32_arith e in
  well_built bm n -> well_built bm n' -> layers n <> [] ->
  Forall2 alike (map params_of (layers n)) (map params_of (layers n')) -> field (map params_of (layers n)) step a b ->
  holds bm X (net_input_shape n) x -> holds bm X' (net_input_shape n') x' ->
  exists n1 n1' Y Y' y y', infer bm n X = Done (n1, Ok tt) /\ infer bm n' X' = Done (n1', Ok tt)
    /\ get_output n1 = Done (Ok Y) /\ get_output n1' = Done (Ok Y')
    /\ holds bm Y (net_output_shape n) y /\ holds bm Y' (net_output_shape n') y'
    /\ forall i j i' j' k, in_shape (net_output_shape n) i j k -> in_shape (net_output_shape n') i' j' k ->
         (forall p q c, p < a -> q < b -> in_shape (net_input_shape n) (i * step + p) (j * step + q) c ->
            in_shape (net_input_shape n') (i' * step + p) (j' * step + q) c ->
            x (i * step + p) (j * step + q) c = x' (i' * step + p) (j' * step + q) c) ->
         y i j k = y' i' j' k.
Proof. exact (fun e => network_fields (f32_relu_agrees e)). Qed.
Print Assumptions C75_receptive_field.

(** The output at (1, 0) of the network on a 6x4 image is that of the network on its last four rows. *)
Example C75_case : exists nets, f_nets = Some nets
  /\ ((well_built Debug (fst nets) /\ well_built Debug (snd nets))
      /\ Forall2 alike (map params_of (layers (fst nets))) (map params_of (layers (snd nets))) /\ field (map params_of (layers (fst nets))) 2 4 4)
  /\ match infer Debug (fst nets) f_image, infer Debug (snd nets) f_crop with
     | Done (n1, Ok _), Done (n1', Ok _) => match get_output n1, get_output n1' with
         | Done (Ok y), Done (Ok y') => tbits y = ints [16;15]%Z /\ tbits y' = ints [15]%Z
         | _, _ => False
         end
     | _, _ => False
     end.
Proof. apply computed; [exact f_nets_ok|]. vm_compute. auto. Qed.
