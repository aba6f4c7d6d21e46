(** * Serialization of layers and networks, and file input/output

    src/layer.rs:13-50, the [get_serialized] / [load_from_serialized] methods of the four layers, and
    [save_to_file] / [load_from_file] / [from_file] of src/network.rs and src/tensor.rs. *)
From Coq.Strings Require Import Byte.
From Verif Require Import Base Arith Helper Tensor Bincode Network.
Local Open Scope string_scope.
Local Open Scope N_scope.

(** convolutional.rs:9-16 [enum ConvolutionalSerialKeys]. *)
Inductive cv_key := KKernels | KBiases | KInputShape | KStride | KName.
Definition cv_key_tag (k : cv_key) : N :=
  match k with KKernels => 0 | KBiases => 1 | KInputShape => 2 | KStride => 3 | KName => 4 end.
Definition cv_key_of (n : N) : option cv_key :=
  match n with
  | 0 => Some KKernels | 1 => Some KBiases | 2 => Some KInputShape | 3 => Some KStride
  | 4 => Some KName | _ => None
  end.
Definition cv_key_eqb (a b : cv_key) : bool := cv_key_tag a =? cv_key_tag b.

(** fully_connected.rs:9-14 [enum FullyConnectedSerialKeys]. *)
Inductive fc_key := FKWeights | FKBias | FKName.
Definition fc_key_tag (k : fc_key) : N :=
  match k with FKWeights => 0 | FKBias => 1 | FKName => 2 end.
Definition fc_key_of (n : N) : option fc_key :=
  match n with 0 => Some FKWeights | 1 => Some FKBias | 2 => Some FKName | _ => None end.
Definition fc_key_eqb (a b : fc_key) : bool := fc_key_tag a =? fc_key_tag b.

(** max_pool.rs:8-14 [enum MaxPoolSerialKeys]. *)
Inductive mp_key := MKInputShape | MKMaskShape | MKStride | MKName.
Definition mp_key_tag (k : mp_key) : N :=
  match k with MKInputShape => 0 | MKMaskShape => 1 | MKStride => 2 | MKName => 3 end.
Definition mp_key_of (n : N) : option mp_key :=
  match n with
  | 0 => Some MKInputShape | 1 => Some MKMaskShape | 2 => Some MKStride | 3 => Some MKName
  | _ => None
  end.
Definition mp_key_eqb (a b : mp_key) : bool := mp_key_tag a =? mp_key_tag b.

(** softmax.rs:13-17 [enum SoftMaxSerialKeys]. *)
Inductive sm_key := SKShape | SKName.
Definition sm_key_tag (k : sm_key) : N := match k with SKShape => 0 | SKName => 1 end.
Definition sm_key_of (n : N) : option sm_key :=
  match n with 0 => Some SKShape | 1 => Some SKName | _ => None end.
Definition sm_key_eqb (a b : sm_key) : bool := sm_key_tag a =? sm_key_tag b.

(** layer.rs:13-19 [enum SerializedLayer]. *)
Inductive serialized_layer :=
| SerialConvolutionalLayer (m : @hmap cv_key)
| SerialFullyConnectedLayer (m : @hmap fc_key)
| SerialMaxPoolLayer (m : @hmap mp_key)
| SerialSoftMaxLayer (m : @hmap sm_key).

(** Derived Serialize for SerializedLayer: u32 variant tag, then the map in its iteration order. *)
Definition enc_layer (l : serialized_layer) : bytes :=
  match l with
  | SerialConvolutionalLayer m => enc_u32 0 ++ enc_map cv_key_tag m
  | SerialFullyConnectedLayer m => enc_u32 1 ++ enc_map fc_key_tag m
  | SerialMaxPoolLayer m => enc_u32 2 ++ enc_map mp_key_tag m
  | SerialSoftMaxLayer m => enc_u32 3 ++ enc_map sm_key_tag m
  end%list.

(** Derived Deserialize for SerializedLayer. *)
Definition dec_layer : parser serialized_layer :=
  pbind dec_u32 (fun tag =>
    match tag with
    | 0 => pbind (dec_map cv_key_eqb cv_key_of) (fun m => pret (SerialConvolutionalLayer m))
    | 1 => pbind (dec_map fc_key_eqb fc_key_of) (fun m => pret (SerialFullyConnectedLayer m))
    | 2 => pbind (dec_map mp_key_eqb mp_key_of) (fun m => pret (SerialMaxPoolLayer m))
    | 3 => pbind (dec_map sm_key_eqb sm_key_of) (fun m => pret (SerialSoftMaxLayer m))
    | _ => pfail
    end).

(** network.rs:21-24 [struct SerializedNetwork]: one field, the vector of layers. *)
Definition serialized_network := list serialized_layer.
Definition enc_network (sn : serialized_network) : bytes := enc_seq enc_layer sn.
Definition dec_network : parser serialized_network := dec_seq dec_layer.

(** [bincode::deserialize(d).expect(..)] *)
Definition deserialize_expect {A} (p : parser A) (d : bytes) : res A :=
  match deserialize p d with Some a => Done a | None => Panic PUnwrap end.

(** [data.get(&k).expect(..)] *)
Definition get_expect {K} (keqb : K -> K -> bool) (m : @hmap K) (k : K) : res bytes :=
  match hm_get keqb m k with Some v => Done v | None => Panic PUnwrap end.

Section WithBuild.
Context (bm : build).
Context {F : Type} {AR : Arith F} {BT : Bits F}.
Notation T := (tensor F).
Notation L := (layer F).
Notation NW := (network F).

(** fully_connected.rs:245-258 [get_serialized]. *)
Definition fc_get_serialized (l : fc_layer F) : serialized_layer :=
  let m := hm_insert fc_key_eqb [] FKWeights (enc_tensor (fc_weights l)) in
  let m := hm_insert fc_key_eqb m FKBias (enc_tensor (fc_bias l)) in
  let m := hm_insert fc_key_eqb m FKName (enc_string (fc_name l)) in
  SerialFullyConnectedLayer m.

(** fully_connected.rs:113-145 [load_from_serialized_data]. *)
Definition fc_load_data (l : fc_layer F) (m : @hmap fc_key) : res (fc_layer F * result unit) :=
  if negb (hm_contains fc_key_eqb m FKName) then
    Done (l, Err "Data does not contain --name-- key")
  else if negb (hm_contains fc_key_eqb m FKWeights) then
    Done (l, Err "Data does not contain --weights-- key")
  else if negb (hm_contains fc_key_eqb m FKBias) then
    Done (l, Err "Data does not contain --bias-- key")
  else
    wd <- get_expect fc_key_eqb m FKWeights ;;
    weights <- deserialize_expect dec_tensor wd ;;
    bd <- get_expect fc_key_eqb m FKBias ;;
    bias <- deserialize_expect dec_tensor bd ;;
    nd <- get_expect fc_key_eqb m FKName ;;
    name <- deserialize_expect dec_string nd ;;
    fc_fill_from_state bm l weights bias name.

(** fully_connected.rs:260-273 [load_from_serialized]. *)
Definition fc_load (l : fc_layer F) (s : serialized_layer) : res (fc_layer F * result unit) :=
  match s with
  | SerialFullyConnectedLayer m => fc_load_data l m
  | _ => Done (l, Err "Layer type does not match max pool type")
  end.

(** convolutional.rs:296-313 [get_serialized]. *)
Definition cv_get_serialized (l : conv_layer F) : serialized_layer :=
  let m := hm_insert cv_key_eqb [] KKernels (enc_tensors (cv_kernels l)) in
  let m := hm_insert cv_key_eqb m KBiases (enc_tensors (cv_biases l)) in
  let m := hm_insert cv_key_eqb m KInputShape (enc_shape (cv_input_shape l)) in
  let m := hm_insert cv_key_eqb m KStride (enc_u32 (cv_stride l)) in
  let m := hm_insert cv_key_eqb m KName (enc_string (cv_name l)) in
  SerialConvolutionalLayer m.

(** convolutional.rs:141-192 [load_from_serialized_data]. *)
Definition cv_load_data (l : conv_layer F) (m : @hmap cv_key) : res (conv_layer F * result unit) :=
  if negb (hm_contains cv_key_eqb m KName) then
    Done (l, Err "Data does not contain --name-- key")
  else if negb (hm_contains cv_key_eqb m KKernels) then
    Done (l, Err "Data does not contain --kernels-- key")
  else if negb (hm_contains cv_key_eqb m KBiases) then
    Done (l, Err "Data does not contain --biases-- key")
  else if negb (hm_contains cv_key_eqb m KInputShape) then
    Done (l, Err "Data does not contain --input shape-- key")
  else if negb (hm_contains cv_key_eqb m KStride) then
    Done (l, Err "Data does not contain --stride-- key")
  else
    kd <- get_expect cv_key_eqb m KKernels ;;
    kernels <- deserialize_expect dec_tensors kd ;;
    bd <- get_expect cv_key_eqb m KBiases ;;
    biases <- deserialize_expect dec_tensors bd ;;
    id <- get_expect cv_key_eqb m KInputShape ;;
    input_shape <- deserialize_expect dec_shape id ;;
    sd <- get_expect cv_key_eqb m KStride ;;
    stride <- deserialize_expect dec_u32 sd ;;
    nd <- get_expect cv_key_eqb m KName ;;
    name <- deserialize_expect dec_string nd ;;
    cv_fill_from_state bm l kernels biases input_shape stride name.

(** convolutional.rs:315-328 [load_from_serialized]. *)
Definition cv_load (l : conv_layer F) (s : serialized_layer) : res (conv_layer F * result unit) :=
  match s with
  | SerialConvolutionalLayer m => cv_load_data l m
  | _ => Done (l, Err "Layer type does not match max pool type")
  end.

(** max_pool.rs:195-210 [get_serialized]. *)
Definition mp_get_serialized (l : mp_layer) : serialized_layer :=
  let m := hm_insert mp_key_eqb [] MKMaskShape (enc_shape (mp_mask_shape l)) in
  let m := hm_insert mp_key_eqb m MKInputShape (enc_shape (mp_input_shape l)) in
  let m := hm_insert mp_key_eqb m MKStride (enc_u32 (mp_stride l)) in
  let m := hm_insert mp_key_eqb m MKName (enc_string (mp_name l)) in
  SerialMaxPoolLayer m.

(** max_pool.rs:106-145 [load_from_serialized_data]. *)
Definition mp_load_data (l : mp_layer) (m : @hmap mp_key) : res (mp_layer * result unit) :=
  if negb (hm_contains mp_key_eqb m MKName) then
    Done (l, Err "Data does not contain --name-- key")
  else if negb (hm_contains mp_key_eqb m MKMaskShape) then
    Done (l, Err "Data does not contain --mask shape-- key")
  else if negb (hm_contains mp_key_eqb m MKInputShape) then
    Done (l, Err "Data does not contain --input shape-- key")
  else if negb (hm_contains mp_key_eqb m MKStride) then
    Done (l, Err "Data does not contain --stride-- key")
  else
    md <- get_expect mp_key_eqb m MKMaskShape ;;
    mask_shape <- deserialize_expect dec_shape md ;;
    id <- get_expect mp_key_eqb m MKInputShape ;;
    input_shape <- deserialize_expect dec_shape id ;;
    sd <- get_expect mp_key_eqb m MKStride ;;
    stride <- deserialize_expect dec_u32 sd ;;
    nd <- get_expect mp_key_eqb m MKName ;;
    name <- deserialize_expect dec_string nd ;;
    mp_fill_from_state bm l input_shape mask_shape stride name.

(** max_pool.rs:212-225 [load_from_serialized]. *)
Definition mp_load (l : mp_layer) (s : serialized_layer) : res (mp_layer * result unit) :=
  match s with
  | SerialMaxPoolLayer m => mp_load_data l m
  | _ => Done (l, Err "Layer type does not match max pool type")
  end.

(** softmax.rs:157-168 [get_serialized]. *)
Definition sm_get_serialized (l : sm_layer F) : serialized_layer :=
  let m := hm_insert sm_key_eqb [] SKShape (enc_shape (sm_shape l)) in
  let m := hm_insert sm_key_eqb m SKName (enc_string (sm_name l)) in
  SerialSoftMaxLayer m.

(** softmax.rs:79-102 [load_from_serialized_data]. *)
Definition sm_load_data (l : sm_layer F) (m : @hmap sm_key) : res (sm_layer F * result unit) :=
  if negb (hm_contains sm_key_eqb m SKName) then
    Done (l, Err "Data does not contain --name-- key")
  else if negb (hm_contains sm_key_eqb m SKShape) then
    Done (l, Err "Data does not contain --shape-- key")
  else
    sd <- get_expect sm_key_eqb m SKShape ;;
    s <- deserialize_expect dec_shape sd ;;
    nd <- get_expect sm_key_eqb m SKName ;;
    name <- deserialize_expect dec_string nd ;;
    Done (mkSM s name (sm_intermediate1 l) (sm_intermediate2 l) (sm_run_state l), Ok tt).

(** softmax.rs:170-183 [load_from_serialized]. *)
Definition sm_load (l : sm_layer F) (s : serialized_layer) : res (sm_layer F * result unit) :=
  match s with
  | SerialSoftMaxLayer m => sm_load_data l m
  | _ => Done (l, Err "Layer type does not match soft max type")
  end.

(** [Layer::get_serialized] dispatch. *)
Definition get_serialized (l : L) : serialized_layer :=
  match l with
  | LConv l => cv_get_serialized l
  | LFC l => fc_get_serialized l
  | LMaxPool l => mp_get_serialized l
  | LSoftmax l => sm_get_serialized l
  end.

(** Body of each arm of [add_to_network]: load into an empty layer, then add it. *)
Definition load_and_add {X} (c : X -> L) (r : res (X * result unit)) (n : NW)
  : res (NW * result unit) :=
  '(l, e) <- r ;;
  match e with
  | Err msg => Done (n, Err msg)
  | Ok _ => add_layer bm n (c l)
  end.

(** layer.rs:22-49 [SerializedLayer::add_to_network]. *)
Definition add_to_network (s : serialized_layer) (n : NW) : res (NW * result unit) :=
  match s with
  | SerialConvolutionalLayer _ => load_and_add LConv (l <- cv_empty bm ;; cv_load l s) n
  | SerialFullyConnectedLayer _ => load_and_add LFC (l <- fc_empty bm ;; fc_load l s) n
  | SerialMaxPoolLayer _ => load_and_add LMaxPool (mp_load mp_empty s) n
  | SerialSoftMaxLayer _ => load_and_add LSoftmax (l <- sm_empty bm ;; sm_load l s) n
  end.

(** network.rs:34-39 [SerializedNetwork::populate_network]. *)
Definition populate_network (sn : serialized_network) (n : NW) : res (NW * result unit) :=
  tryM sn add_to_network n.

(** network.rs:41-49 [SerializedNetwork::new_from_network]. *)
Definition new_from_network (n : NW) : serialized_network := map get_serialized (layers n).

(** ** Files *)

(** The part of the file system the crate can see: file name to content. *)
Definition filesystem := string -> option bytes.

(** What the operating system does with one [fs::write]: complete it, or fail / crash after the first
    [n] bytes reached the (truncated) file, or fail before touching the file. *)
Inductive write_outcome := WriteOk | WriteStops (n : nat) | WriteDenied.

Definition fs_set (fs : filesystem) (name : string) (b : bytes) : filesystem :=
  fun f => if String.eqb f name then Some b else fs f.

Definition fs_write (fs : filesystem) (name : string) (b : bytes) (o : write_outcome)
  : filesystem * result unit :=
  match o with
  | WriteOk => (fs_set fs name b, Ok tt)
  | WriteStops n => (fs_set fs name (firstn n b), Err "io error")
  | WriteDenied => (fs, Err "io error")
  end.

(** tensor.rs:120-124 [Tensor::save_to_file]. *)
Definition tensor_save (t : T) (fs : filesystem) (name : string) (o : write_outcome)
  : filesystem * result unit :=
  fs_write fs name (enc_tensor t) o.

(** tensor.rs:126-130 [Tensor::from_file]. *)
Definition tensor_from_file (fs : filesystem) (name : string) : result T :=
  match fs name with
  | None => Err "io error"
  | Some content =>
      match deserialize dec_tensor content with
      | None => Err "bincode error"
      | Some t => Ok t
      end
  end.

(** The iteration order of the hash map of the [n]-th layer at this save: any rearrangement of its entries.
    std's [HashMap] randomises it per map. *)
Record hash_order := { order : forall (n : nat) (K : Type), list (K * bytes) -> list (K * bytes) }.

Definition order_layer (h : hash_order) (n : nat) (l : serialized_layer) : serialized_layer :=
  match l with
  | SerialConvolutionalLayer m => SerialConvolutionalLayer (order h n cv_key m)
  | SerialFullyConnectedLayer m => SerialFullyConnectedLayer (order h n fc_key m)
  | SerialMaxPoolLayer m => SerialMaxPoolLayer (order h n mp_key m)
  | SerialSoftMaxLayer m => SerialSoftMaxLayer (order h n sm_key m)
  end.

(** Iterate every map of the network in its own order. *)
Definition order_network (h : hash_order) (sn : serialized_network) : serialized_network :=
  map (fun '(n, l) => order_layer h n l) (combine (seq 0 (length sn)) sn).

(** network.rs:51-56 [SerializedNetwork::to_byte_array]. *)
Definition to_byte_array (h : hash_order) (sn : serialized_network) : bytes :=
  enc_network (order_network h sn).

(** network.rs:89-94 [Network::save_to_file]. *)
Definition network_save (h : hash_order) (n : NW) (fs : filesystem) (name : string)
    (o : write_outcome) : filesystem * result unit :=
  fs_write fs name (to_byte_array h (new_from_network n)) o.

(** network.rs:95-100 [Network::load_from_file]. *)
Definition network_load (n : NW) (fs : filesystem) (name : string) : res (NW * result unit) :=
  match fs name with
  | None => Done (n, Err "io error")
  | Some content =>
      match deserialize dec_network content with
      | None => Done (n, Err "bincode error")
      | Some sn => populate_network sn n
      end
  end.

End WithBuild.
