(** * C80: training resumes exactly from a saved network *)
From Verif Require Import Base Arith Helper Tensor Network Bincode Serial Float32 Spec SpecLayer SpecNet SpecSerial.
From Verif Require Import ProofsFloat ProofsResume Demo DemoNet DemoSerial.
Local Open Scope string_scope.
Local Open Scope N_scope.

(** A network with any history and its copy from a file: switched to either mode they are in the same state after the next inference,
    with all buffers and masks, so nothing done afterwards can tell them apart. *)
Theorem C80_checkpoint : forall e bm h st (n : network f32) fs name,
  let AR := f32_arith e in
  well_built bm n -> Forall storable (layers n) -> valid_order h -> len (to_byte_array h (new_from_network n)) < W64 -> layers n <> [] ->
  exists n', network_load bm (network_new st) (fst (network_save h n fs name WriteOk)) name = Done (n', Ok tt)
    /\ (exists t t', net_switch_to_training bm n = Done t /\ net_switch_to_training bm n' = Done t'
          /\ forall X, shaped X (net_input_shape n) -> exists m, infer bm t X = Done (m, Ok tt) /\ infer bm t' X = Done (m, Ok tt))
    /\ exists t t', net_switch_to_inference bm n = Done t /\ net_switch_to_inference bm n' = Done t'
          /\ forall X, shaped X (net_input_shape n) -> exists m, infer bm t X = Done (m, Ok tt) /\ infer bm t' X = Done (m, Ok tt).
Proof. exact resume. Qed.
Print Assumptions C80_checkpoint.

(** The same for any two networks with the same layers. *)
Theorem C80_history_forgotten : forall e bm (n n' : network f32),
  let AR := f32_arith e in
  well_built bm n -> well_built bm n' -> layers n <> [] ->
  map params_of (layers n') = map params_of (layers n) -> map get_name (layers n') = map get_name (layers n) ->
  (exists t t', net_switch_to_training bm n = Done t /\ net_switch_to_training bm n' = Done t'
     /\ forall X, shaped X (net_input_shape n) -> exists m, infer bm t X = Done (m, Ok tt) /\ infer bm t' X = Done (m, Ok tt))
  /\ exists t t', net_switch_to_inference bm n = Done t /\ net_switch_to_inference bm n' = Done t'
     /\ forall X, shaped X (net_input_shape n) -> exists m, infer bm t X = Done (m, Ok tt) /\ infer bm t' X = Done (m, Ok tt).
Proof. exact (fun e bm n n' => @switched_equal f32 (f32_arith e) f32_bits bm n n' (f32_relu_agrees e)). Qed.
Print Assumptions C80_history_forgotten.

(** A network of four layers that has just run: its states are not those of the copy, until both have run on the next input. *)
Example C80_case : valid_order backwards
  /\ exists n, run_all Debug (network_new Inference) d_four = Some n
     /\ (well_built Debug n /\ Forall storable (layers n))
     /\ let states n := map tbits (intermediate_states n) in
        let X := tn (net_input_shape n) [1;2;3;4;5;6;7;8;9;10;11;12;13;14;15;16]%Z in
        match infer Debug n (tn (net_input_shape n) [3;1;4;1;5;9;2;6;5;3;5;8;9;7;9;3]%Z),
              network_load Debug (network_new Inference) (fst (network_save backwards n no_files "net" WriteOk)) "net" with
        | Done (n1, Ok _), Done (n', Ok _) =>
            match net_switch_to_training Debug n1, net_switch_to_training Debug n' with
            | Done t, Done t' =>
                states t <> states t'
                /\ match infer Debug t X, infer Debug t' X with Done (m, Ok _), Done (m', Ok _) => states m = states m' | _, _ => False end
            | _, _ => False
            end
        | _, _ => False
        end.
Proof. split; [exact backwards_valid|]. apply computed; [exact d_four_stored|]. vm_compute. split; [discriminate|reflexivity]. Qed.
