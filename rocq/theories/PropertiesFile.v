(** * C72: sizes and independence of files *)
From Verif Require Import Base Arith Helper Tensor Network Bincode Serial Float32 Spec SpecLayer SpecNet SpecSerial SpecFile.
From Verif Require Import ProofsFile Demo DemoNet DemoSerial.
Local Open Scope string_scope.
Local Open Scope N_scope.

(** Whatever the order of the hash maps. *)
Theorem C72_network_size : forall F (BT : Bits F) h (n : network F), valid_order h ->
  len (to_byte_array h (new_from_network n)) = 8 + total (map (fun l => layer_bytes (params_of l) (get_name l)) (layers n)).
Proof. exact @file_size. Qed.
Print Assumptions C72_network_size.

Theorem C72_tensor_size : forall (t : tensor f32) fs name, exists b, fst (tensor_save t fs name WriteOk) name = Some b /\ len b = tensor_bytes t.
Proof. exact saved_size. Qed.
Print Assumptions C72_tensor_size.

(** A loaded network is saved exactly like the original. *)
Theorem C72_saved_again : forall e bm h st (n : network f32) fs name,
  @well_built f32 (f32_arith e) f32_bits bm n -> Forall storable (layers n) -> valid_order h ->
  8 + total (map (fun l => layer_bytes (params_of l) (get_name l)) (layers n)) < W64 ->
  exists n', @network_load bm f32 (f32_arith e) f32_bits (network_new st) (fst (network_save h n fs name WriteOk)) name = Done (n', Ok tt)
    /\ forall h' fs' name', network_save h' n' fs' name' WriteOk = network_save h' n fs' name' WriteOk.
Proof. exact resaved. Qed.
Print Assumptions C72_saved_again.

(** Saving, even if it fails or stops half way, leaves the other files alone; loading reads nothing but its own. *)
Theorem C72_other_files : forall F (BT : Bits F) h (n : network F) (t : tensor F) fs name o other, other <> name ->
  fst (network_save h n fs name o) other = fs other /\ fst (tensor_save t fs name o) other = fs other.
Proof. exact @other_files. Qed.
Print Assumptions C72_other_files.

Theorem C72_own_file : forall F (AR : Arith F) (BT : Bits F) bm (n : network F) fs fs' name name', fs name = fs' name' ->
  network_load bm n fs name = network_load bm n fs' name' /\ tensor_from_file (F:=F) fs name = tensor_from_file fs' name'.
Proof. exact @load_reads. Qed.
Print Assumptions C72_own_file.

(** The four layers of C41: 8 + 200 + 101 + 149 + 60 bytes. *)
Example C72_case : valid_order backwards
  /\ exists n, run_all Debug (network_new Inference) d_four = Some n /\ (well_built Debug n /\ Forall storable (layers n))
     /\ map (fun l => layer_bytes (params_of l) (get_name l)) (layers n) = [200; 101; 149; 60] /\ len (to_byte_array backwards (new_from_network n)) = 518.
Proof. split; [exact backwards_valid|]. apply computed; [exact d_four_stored|]. vm_compute. auto. Qed.
