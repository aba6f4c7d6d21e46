(** * C60 - C62, C64: states after inference, and networks joined by files *)
From Verif Require Import Base Arith Helper Tensor Network Bincode Serial Float32 Spec SpecLayer SpecNet SpecSerial.
From Verif Require Import ProofsStates ProofsJoin Demo DemoNet DemoSerial.
Local Open Scope string_scope.
Local Open Scope N_scope.

(** ** C60 *)
Theorem C60_states_are_prefixes : forall e bm n X n', @well_built f32 (f32_arith e) f32_bits bm n -> wf X ->
  @infer bm f32 (f32_arith e) n X = Done (n', Ok tt) ->
  forall i t, get_intermediate_state n' i = Done (Ok t) ->
  @composes f32 (f32_arith e) bm (firstn (N.to_nat i) (map params_of (layers n))) X t.
Proof. exact built_states. Qed.
Print Assumptions C60_states_are_prefixes.

Theorem C60_backward_keeps_states : forall F (AR : Arith F) bm (n : network F) g n' r i,
  net_backward bm n g = Done (n', r) -> get_intermediate_state n' i = get_intermediate_state n i.
Proof. exact @backward_states. Qed.
Print Assumptions C60_backward_keeps_states.

Example C60_case :
  exists n, run_all Debug (network_new Training) [OAdd d_mp; OAdd d_fc; OAdd d_sm] = Some n /\ well_built Debug n
    /\ match infer Debug n d_image with
       | Done (n', Ok _) => match get_intermediate_state n' 1, get_intermediate_state n' 2 with
           | Done (Ok t1), Done (Ok t2) => tbits t1 = ints [8; 3]%Z /\ tbits t2 = ints [18; 0]%Z
           | _, _ => False
           end
       | _ => False
       end.
Proof.
  apply computed; [intros n E; eapply run_all_built; [apply built_new| |exact E]; constructor; [exact d_mp_ok|constructor; [exact d_fc_ok|constructor; [exact d_sm_ok|constructor]]]|].
  vm_compute. auto.
Qed.

(** ** C61 *)
Theorem C61_joined : forall e bm h (n n0 : network f32) fs name,
  @well_built f32 (f32_arith e) f32_bits bm n -> Forall storable (layers n) -> @well_built f32 (f32_arith e) f32_bits bm n0 -> valid_order h ->
  len (to_byte_array h (new_from_network n)) < W64 ->
  layers n <> [] -> layers n0 <> [] -> net_output_shape n0 = net_input_shape n ->
  exists n', @network_load bm f32 (f32_arith e) f32_bits n0 (fst (network_save h n fs name WriteOk)) name = Done (n', Ok tt)
    /\ map params_of (layers n') = (map params_of (layers n0) ++ map params_of (layers n))%list
    /\ map get_name (layers n') = (map get_name (layers n0) ++ map get_name (layers n))%list
    /\ forall X, shaped X (net_input_shape n0) ->
         exists n1 Y n2 Z n3, @infer bm f32 (f32_arith e) n0 X = Done (n1, Ok tt) /\ get_output n1 = Done (Ok Y)
           /\ @infer bm f32 (f32_arith e) n Y = Done (n2, Ok tt) /\ get_output n2 = Done (Ok Z)
           /\ @infer bm f32 (f32_arith e) n' X = Done (n3, Ok tt) /\ get_output n3 = Done (Ok Z).
Proof. exact join_loaded. Qed.
Print Assumptions C61_joined.

(** A network of one layer saved and loaded behind pooling. *)
Example C61_case : valid_order backwards
  /\ exists n n0, run_all Debug (network_new Inference) [OAdd d_fc] = Some n /\ run_all Debug (network_new Training) [OAdd d_mp] = Some n0
     /\ well_built Debug n /\ Forall storable (layers n) /\ well_built Debug n0
     /\ len (to_byte_array backwards (new_from_network n)) < W64 /\ net_output_shape n0 = net_input_shape n
     /\ match network_load Debug n0 (fst (network_save backwards n no_files "net" WriteOk)) "net" with
        | Done (n', Ok _) => map get_name (layers n') = ["pool"; "dense"]
        | _ => False
        end.
Proof.
  split; [exact backwards_valid|].
  assert (C : match run_all Debug (network_new Inference) [OAdd d_fc], run_all Debug (network_new Training) [OAdd d_mp] with
              | Some n, Some n0 => len (to_byte_array backwards (new_from_network n)) < W64 /\ net_output_shape n0 = net_input_shape n
                 /\ match network_load Debug n0 (fst (network_save backwards n no_files "net" WriteOk)) "net" with
                    | Done (n', Ok _) => map get_name (layers n') = ["pool"; "dense"]
                    | _ => False
                    end
              | _, _ => False
              end) by (vm_compute; auto).
  destruct (run_all Debug (network_new Inference) [OAdd d_fc]) as [n|] eqn:E1; [|contradiction C].
  destruct (run_all Debug (network_new Training) [OAdd d_mp]) as [n0|] eqn:E2; [|contradiction C].
  exists n, n0. split; [reflexivity|]. split; [reflexivity|].
  destruct (adds_storable [d_fc] _ _ (built_new _ _) (Forall_nil _) (Forall_cons _ (proj1 (proj2 d_storable)) (Forall_nil _)) E1) as (B & S).
  split; [exact B|]. split; [exact S|]. split; [|exact C].
  refine (run_all_built _ _ _ _ (built_new _ _) _ E2). constructor; [exact d_mp_ok|constructor].
Qed.

(** ** C62: NaN and values below zero never leave fully connected and convolutional layers, NaN never leaves pooling *)
Theorem C62_clean_states : forall e bm n X n' i l t v, @well_built f32 (f32_arith e) f32_bits bm n -> wf X ->
  @infer bm f32 (f32_arith e) n X = Done (n', Ok tt) ->
  nth_error (layers n) (N.to_nat i) = Some l -> get_intermediate_state n' (i + 1) = Done (Ok t) -> In v (data t) ->
  match l with
  | LFC _ | LConv _ => isnan v = false /\ f32_gtb f32_zero v = false
  | LMaxPool _ => isnan v = false
  | LSoftmax _ => True
  end.
Proof. exact built_clean. Qed.
Print Assumptions C62_clean_states.

(** An image of NaNs. *)
Example C62_case :
  let nan := b32 2143289344 in
  let X := mkTensor (mkStride 1 2 2) (mkShape 2 1 1) [nan; nan] in
  isnan nan = true /\ wf X /\ exists n, run_all Debug (network_new Inference) [OAdd d_fc] = Some n /\ well_built Debug n
    /\ match infer Debug n X with
       | Done (n', Ok _) => match get_intermediate_state n' 1 with Done (Ok t) => tbits t = ints [0; 0]%Z | _ => False end
       | _ => False
       end.
Proof.
  cbv zeta. split; [vm_compute; reflexivity|]. split; [demo_wf|].
  apply computed; [intros n E; eapply run_all_built; [apply built_new| |exact E]; constructor; [exact d_fc_ok|constructor]|]. vm_compute. reflexivity.
Qed.

(** ** C64: two networks with the same file are the same, whatever the order of the maps *)
Theorem C64_file_determines : forall e bm (n n' : network f32) h h',
  @well_built f32 (f32_arith e) f32_bits bm n -> @well_built f32 (f32_arith e) f32_bits bm n' ->
  Forall storable (layers n) -> Forall storable (layers n') -> valid_order h -> valid_order h' ->
  len (to_byte_array h (new_from_network n)) < W64 ->
  to_byte_array h (new_from_network n) = to_byte_array h' (new_from_network n') ->
  map params_of (layers n) = map params_of (layers n') /\ map get_name (layers n) = map get_name (layers n').
Proof. exact file_determines. Qed.
Print Assumptions C64_file_determines.

(** A history and its run have the same file; so has the network a file was loaded into. *)
Example C64_case : valid_order backwards
  /\ exists n, run_all Debug (network_new Inference) d_four = Some n /\ (well_built Debug n /\ Forall storable (layers n))
     /\ match network_load Debug (network_new Training) (fst (network_save backwards n no_files "net" WriteOk)) "net" with
        | Done (n', Ok _) => to_byte_array backwards (new_from_network n') = to_byte_array backwards (new_from_network n)
        | _ => False
        end.
Proof. split; [exact backwards_valid|]. apply computed; [exact d_four_stored|]. vm_compute. reflexivity. Qed.
