(** * C43, C44, C47: exactly when *)
From Coq.Strings Require Import Byte.
From Verif Require Import Base Arith Helper Tensor Convolution Convolutional Network Bincode Serial Float32 Spec SpecLayer SpecNet SpecSerial SpecLoad.
From Verif Require Import Float32Facts ProofsLoad ProofsFloat Demo DemoNet DemoSerial.
Local Open Scope string_scope.
Local Open Scope N_scope.

(** A failed load leaves the network alone if the file cannot be read or decoded; otherwise it leaves the layers before the first one that
    could not be added. *)
Theorem C43_exactly_partial : forall F (AR : Arith F) (BT : Bits F) bm (n n' : network F) fs name m,
  network_load bm n fs name = Done (n', Err m) ->
  (n' = n /\ forall b, fs name = Some b -> deserialize dec_network b = None)
  \/ exists b before s after, fs name = Some b /\ deserialize dec_network b = Some (before ++ s :: after)%list
       /\ populate_network bm before n = Done (n', Ok tt) /\ add_to_network bm s n' = Done (n', Err m).
Proof. exact @load_fails_exactly. Qed.
Print Assumptions C43_exactly_partial.

(** A release build panics exactly on files in which, after layers that load, comes one with all its entries of which one does not decode
    or asks for stride zero. *)
Theorem C44_release_exactly_partial : forall F (AR : Arith F) (BT : Bits F) (n : network F) fs name,
  (exists p, network_load Release n fs name = Panic p)
  <-> exists b before s after n1, fs name = Some b /\ deserialize dec_network b = Some (before ++ s :: after)%list
      /\ populate_network Release before n = Done (n1, Ok tt) /\ unloadable (F := F) s.
Proof. exact @load_panics_exactly. Qed.
Print Assumptions C44_release_exactly_partial.

(** A debug build panics on these files too. *)
Theorem C44_debug_panics_partial : forall F (AR : Arith F) (BT : Bits F) (n : network F) fs name,
  (exists p, network_load Release n fs name = Panic p) -> exists p, network_load Debug n fs name = Panic p.
Proof. exact @load_panics_debug. Qed.
Print Assumptions C44_debug_panics_partial.

(** A good layer, then a max-pool layer with stride 0. *)
Example C44_stride_case : let s := SerialMaxPoolLayer [(MKInputShape, enc_shape (mkShape 2 1 1)); (MKMaskShape, enc_shape (mkShape 1 1 1)); (MKStride, enc_u32 0); (MKName, enc_string "p")] in
  let fs := fs_set no_files "net" (enc_network [get_serialized d_fc; s]) in
  unloadable (F := f32) s
  /\ (exists b, fs "net" = Some b /\ option_map (@length _) (deserialize dec_network b) = Some 2%nat)
  /\ match populate_network Release [get_serialized d_fc] (network_new Inference) with Done (n1, Ok _) => len (layers n1) = 1 | _ => False end
  /\ panics (network_load Release (network_new (F := f32) Inference) fs "net") = true.
Proof.
  cbv zeta. split; [split; [intros []; vm_compute; discriminate|]|].
  - do 4 right. eexists. split; vm_compute; reflexivity.
  - split; [eexists; split; [reflexivity|vm_compute; reflexivity]|]. split; vm_compute; reflexivity.
Qed.

(** Convolutional layers: which accepted layers can run forward (in inference mode, with well-formed kernels and biases). *)
Theorem C47_exactly_partial : forall e bm (l0 l : conv_layer f32) kernels biases ins stride name ks X Y0,
  cv_fill_from_state bm l0 kernels biases ins stride name = Done (l, Ok tt) ->
  Forall (fun k => shaped k ks) kernels -> Forall wf biases -> len kernels < W32 -> (bm = Debug \/ kernel_fits ins ks) ->
  ~ extent_edge (di ins) (di ks) stride -> ~ extent_edge (dj ins) (dj ks) stride ->
  cv_run_state l0 = Inference -> shaped X (cv_input_shape l) -> shaped Y0 (cv_output_shape l) ->
  ((exists l' Y, @cv_forward bm f32 (f32_arith e) l X Y0 = Done (l', Y, Ok tt))
   <-> dk ks = dk ins /\ forall i, i < len kernels -> exists b, nth_error biases (N.to_nat i) = Some b /\ at_most_one (tshape b)).
Proof. exact (fun e bm l0 l kernels biases ins stride name ks X Y0 => @conv_forward_exactly f32 (f32_arith e) bm l0 l kernels biases ins stride name ks X Y0 (f32_relu_agrees e)). Qed.
Print Assumptions C47_exactly_partial.
