(** * C38-C44, C52: files *)
From Coq Require Import Permutation.
From Coq.Strings Require Import Byte.
From Verif Require Import Base Arith Helper Tensor Network Bincode Serial Float32 Spec SpecLayer SpecNet SpecSerial.
From Verif Require Import SerialFacts ProofsSerial Demo DemoNet DemoSerial.
Local Open Scope string_scope.
Local Open Scope N_scope.

(** ** C38 *)
Theorem C38_tensor_round_trip : forall (t : tensor f32) fs name, typed_tensor t ->
  snd (tensor_save t fs name WriteOk) = Ok tt /\ tensor_from_file (fst (tensor_save t fs name WriteOk)) name = Ok t.
Proof. exact file_round_trip. Qed.
Print Assumptions C38_tensor_round_trip.

(** NaNs with payloads, signed zeros and infinities; not even a consistent shape is needed. *)
Example C38_case : typed_tensor d_odd
  /\ match tensor_from_file (fst (tensor_save d_odd no_files "t" WriteOk)) "t" with
     | Ok t => map fto_bits (data t) = [2143289345; 4290772993; 2139095041; 2147483648; 0; 4286578688; 1] /\ tshape t = tshape d_odd
     | Err _ => False
     end.
Proof. split; [repeat split; reflexivity|vm_compute; auto]. Qed.

(** ** C39 *)
Theorem C39_truncated : forall (t : tensor f32) fs name k, typed_tensor t -> (k < length (enc_tensor t))%nat ->
  exists m, @tensor_from_file f32 f32_bits (fst (tensor_save t fs name (WriteStops k))) name = Err m.
Proof. exact file_truncated. Qed.
Print Assumptions C39_truncated.

Theorem C39_extended : forall (t : tensor f32) fs name rest, typed_tensor t ->
  fs name = Some (enc_tensor t ++ rest)%list -> tensor_from_file fs name = Ok t.
Proof. exact file_extended. Qed.
Print Assumptions C39_extended.

Example C39_case : typed_tensor d_odd /\ length (enc_tensor d_odd) = 60%nat
  /\ (match @tensor_from_file f32 f32_bits (fst (tensor_save d_odd no_files "t" (WriteStops 59))) "t" with Ok _ => False | Err _ => True end)
  /\ (match @tensor_from_file f32 f32_bits (fs_set no_files "t" (enc_tensor d_odd ++ [x41; x42])%list) "t" with Ok _ => True | Err _ => False end).
Proof. split; [repeat split; reflexivity|]. vm_compute. auto. Qed.

(** ** C40: nothing is validated *)
Theorem C40_well_formed_refuted : exists fs name (t : tensor f32),
  tensor_from_file fs name = Ok t /\ ~ wf t /\ in_shape (tshape t) 1 1 0
  /\ (forall bm, @get_item bm f32 (f32_arith demo_env) t (mkIndex 1 1 0) = Panic PBounds).
Proof.
  exists (fs_set no_files "t" (enc_tensor d_short)), "t", d_short.
  split; [exact (proj2 (file_round_trip d_short no_files "t" ltac:(repeat split; reflexivity)))|].
  split; [intros (_ & _ & L); discriminate L|]. split; [repeat split; reflexivity|]. intros []; reflexivity.
Qed.
Print Assumptions C40_well_formed_refuted.

(** What is missing: a check. The result is well-formed exactly when the file begins with a saved well-formed tensor. *)
Theorem C40_well_formed_partial : forall fs name,
  (exists t : tensor f32, tensor_from_file fs name = Ok t /\ wf t) <->
  (exists (t : tensor f32) rest, wf t /\ fs name = Some (enc_tensor t ++ rest)%list).
Proof. exact file_well_formed. Qed.
Print Assumptions C40_well_formed_partial.

Example C40_case : wf d_image /\ match tensor_from_file (fs_set no_files "t" (enc_tensor d_image)) "t" with Ok t => tbits t = tbits d_image | Err _ => False end.
Proof. split; [demo_wf|vm_compute; reflexivity]. Qed.

(** ** C41 *)
Theorem C41_network_round_trip : forall e bm h st (n : network f32) fs name,
  @well_built f32 (f32_arith e) f32_bits bm n -> Forall storable (layers n) -> valid_order h ->
  len (to_byte_array h (new_from_network n)) < W64 ->
  exists n', @network_load bm f32 (f32_arith e) f32_bits (network_new st) (fst (network_save h n fs name WriteOk)) name = Done (n', Ok tt)
    /\ map params_of (layers n') = map params_of (layers n) /\ map get_name (layers n') = map get_name (layers n)
    /\ Forall (fun l => get_run_mode l = st) (layers n')
    /\ forall X, wf X -> exists n1 n2 r,
         @infer bm f32 (f32_arith e) n X = Done (n1, r) /\ @infer bm f32 (f32_arith e) n' X = Done (n2, r)
         /\ (r = Ok tt <-> tshape X = net_input_shape n /\ layers n <> []) /\ (r = Ok tt -> get_output n1 = get_output n2).
Proof. exact network_file. Qed.
Print Assumptions C41_network_round_trip.

(** A network of all four kinds of layer, its maps written backwards. *)
Example C41_case : valid_order backwards
  /\ exists n, run_all Debug (network_new Inference) d_four = Some n
     /\ (well_built Debug n /\ Forall storable (layers n))
     /\ (map get_name (layers n) = ["conv"; "pool1"; "dense"; "soft"] /\ len (to_byte_array backwards (new_from_network n)) < W64
         /\ match network_load Debug (network_new Training) (fst (network_save backwards n no_files "net" WriteOk)) "net" with
            | Done (n', Ok _) => map get_name (layers n') = ["conv"; "pool1"; "dense"; "soft"]
            | _ => False
            end).
Proof. split; [exact backwards_valid|]. apply computed; [exact d_four_stored|]. vm_compute. auto. Qed.

(** ** C42 *)
Theorem C42_truncated : forall e bm h (n n0 : network f32) fs name k, valid_order h ->
  len (to_byte_array h (new_from_network n)) < W64 -> (k < length (to_byte_array h (new_from_network n)))%nat ->
  exists m, @network_load bm f32 (f32_arith e) f32_bits n0 (fst (network_save h n fs name (WriteStops k))) name = Done (n0, Err m).
Proof. exact network_truncated. Qed.
Print Assumptions C42_truncated.

Example C42_case : valid_order backwards
  /\ exists n, run_all Debug (network_new Inference) d_four = Some n /\ well_built Debug n
     /\ (len (to_byte_array backwards (new_from_network n)) = 518
         /\ answered (network_load Debug (network_new Training) (fst (network_save backwards n no_files "net" (WriteStops 517))) "net") = Some false).
Proof. split; [exact backwards_valid|]. apply computed; [intros n E; exact (proj1 (d_four_stored n E))|]. vm_compute. auto. Qed.

(** ** C43: a file whose second layer does not fit the first *)
Theorem C43_atomic_refuted : exists fs name (n : network f32) n' m,
  @network_load Debug f32 (f32_arith demo_env) f32_bits n fs name = Done (n', Err m) /\ layers n = [] /\ layers n' <> [].
Proof. exact d_half_loaded. Qed.
Print Assumptions C43_atomic_refuted.

(** What is missing: files not written by [save_to_file]. A file that was is loaded whole or not at all. *)
Theorem C43_saved_atomic_partial : forall e bm h (n n0 : network f32) fs name,
  @well_built f32 (f32_arith e) f32_bits bm n -> Forall storable (layers n) -> @well_built f32 (f32_arith e) f32_bits bm n0 -> valid_order h ->
  len (to_byte_array h (new_from_network n)) < W64 ->
  exists n' r, @network_load bm f32 (f32_arith e) f32_bits n0 (fst (network_save h n fs name WriteOk)) name = Done (n', r)
    /\ (r <> Ok tt -> n' = n0)
    /\ (r = Ok tt <-> layers n0 = [] \/ layers n = [] \/ net_output_shape n0 = net_input_shape n).
Proof. exact network_saved_load. Qed.
Print Assumptions C43_saved_atomic_partial.

(** Any bytes: what was in the network before stays, layers can only be appended. *)
Theorem C43_prefix_partial : forall F (AR : Arith F) (BT : Bits F) bm (n : network F) fs name n' r,
  network_load bm n fs name = Done (n', r) ->
  exists ls ss, layers n' = (layers n ++ ls)%list /\ intermediate_states n' = (intermediate_states n ++ ss)%list
    /\ net_run_state n' = net_run_state n /\ (layers n <> [] -> net_input_shape n' = net_input_shape n).
Proof. exact @load_keeps. Qed.
Print Assumptions C43_prefix_partial.

Theorem C43_undecodable_partial : forall e bm (n : network f32) fs name,
  (forall b, fs name = Some b -> deserialize dec_network b = None) ->
  exists m, @network_load bm f32 (f32_arith e) f32_bits n fs name = Done (n, Err m).
Proof. exact network_undecodable. Qed.
Print Assumptions C43_undecodable_partial.

(** The network of four layers does not fit behind itself. *)
Example C43_case : exists n, run_all Debug (network_new Inference) d_four = Some n
  /\ (well_built Debug n /\ Forall storable (layers n))
  /\ answered (network_load Debug n (fst (network_save backwards n no_files "net" WriteOk)) "net") = Some false.
Proof. apply computed; [exact d_four_stored|]. vm_compute. reflexivity. Qed.

(** ** C44: inner bytes that do not decode *)
Theorem C44_no_panic_refuted : exists fs name (n : network f32), forall bm,
  @network_load bm f32 (f32_arith demo_env) f32_bits n fs name = Panic PUnwrap.
Proof. exists (fs_set no_files "net" (enc_network d_corrupt)), "net", (network_new Inference). intros []; vm_compute; reflexivity. Qed.
Print Assumptions C44_no_panic_refuted.

(** What is missing: stored entries that do not decode or have unusable shapes. *)
Theorem C44_no_panic_partial : forall F (AR : Arith F) (BT : Bits F) bm (n : network F) fs name,
  (forall b sn, fs name = Some b -> deserialize dec_network b = Some sn -> Forall (loadable (F := F)) sn) ->
  exists n' r, network_load bm n fs name = Done (n', r).
Proof. exact @load_total. Qed.
Print Assumptions C44_no_panic_partial.

(** A good layer followed by one with a missing entry. *)
Example C44_case : Forall (loadable (F := f32)) d_incomplete
  /\ answered (@network_load Debug f32 demo_f32 f32_bits (network_new Training) (fs_set no_files "net" (enc_network d_incomplete)) "net") = Some false.
Proof. split; [exact d_incomplete_loadable|vm_compute; reflexivity]. Qed.

(** ** C52 *)
Theorem C52_layer_round_trip_partial : forall e bm h k (l : layer f32), storable l -> valid_order h ->
  exists em l', @empty_like bm f32 (f32_arith e) l = Done em
    /\ @load_from_serialized bm f32 (f32_arith e) f32_bits em (order_layer h k (get_serialized l)) = Done (l', Ok tt)
    /\ params_of l' = params_of l /\ get_name l' = get_name l /\ get_run_mode l' = Inference.
Proof. exact layer_round_trip. Qed.
Print Assumptions C52_layer_round_trip_partial.

Theorem C52_other_kind : forall F (AR : Arith F) (BT : Bits F) bm (l : layer F) s,
  ~ same_kind l s -> exists m, load_from_serialized bm l s = Done (l, Err m).
Proof. exact @other_kind. Qed.
Print Assumptions C52_other_kind.

(** What is missing: a convolutional layer without kernels, which is what [empty()] returns, is stored but not loaded. *)
Theorem C52_layer_round_trip_refuted : exists l : layer f32, @empty_like Debug f32 (f32_arith demo_env) l = Done l
  /\ exists m, @load_from_serialized Debug f32 (f32_arith demo_env) f32_bits l (get_serialized l) = Done (l, Err m).
Proof. exists d_no_kernels. split; [vm_compute; reflexivity|]. eexists. vm_compute. reflexivity. Qed.
Print Assumptions C52_layer_round_trip_refuted.

Example C52_case : storable d_cv /\ storable d_fc /\ storable d_mp /\ storable d_sm.
Proof. exact d_storable. Qed.
