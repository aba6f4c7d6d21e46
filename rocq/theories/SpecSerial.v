(** * Specification vocabulary for files *)
From Coq Require Import Permutation.
From Coq.Strings Require Import Byte.
From Verif Require Import Base Arith Helper Tensor Bincode Network Serial Spec SpecLayer.

(** usize / u64 lengths *)
Definition W64 : N := 18446744073709551616.

(** [b'] is [b] cut short. *)
Definition cut (b' b : bytes) : Prop := exists x t, b = (b' ++ x :: t)%list.

(** Every field fits the integer type the struct gives it. *)
Definition typed_tensor {F} (t : tensor F) : Prop :=
  si (strides t) < W32 /\ sj (strides t) < W32 /\ sk (strides t) < W32 /\ u32_shape (tshape t) /\ len (data t) < W64.

(** Iterating a hash map yields each entry once, in some order. *)
Definition valid_order (h : hash_order) : Prop := forall n K l, Permutation (order h n K l) l.

(** Fields that are u32 or lengths in the struct, and valid UTF-8 in the name. *)
Definition typed_layer {F} (l : layer F) : Prop :=
  rust_string (get_name l) /\ len (list_byte_of_string (get_name l)) < W64 /\
  match l with
  | LFC _ | LSoftmax _ => True
  | LConv l => cv_stride l < W32 /\ len (cv_biases l) < W64
  | LMaxPool l => mp_stride l < W32 /\ u32_shape (mp_mask_shape l)
  end.

(** A well-formed layer that [fill_from_state] would accept (a convolutional layer has at least one kernel). *)
Definition storable {F} (l : layer F) : Prop :=
  layer_ok l /\ typed_layer l /\ match l with LConv l => cv_kernels l <> [] | _ => True end.

Section Layers.
Context (bm : build) {F : Type} {AR : Arith F} {BT : Bits F}.

Definition lift_load {X} (c : X -> layer F) (r : res (X * result unit)) : res (layer F * result unit) :=
  '(l, e) <- r ;; Done (c l, e).

(** [Layer::load_from_serialized] dispatch. *)
Definition load_from_serialized (l : layer F) (s : serialized_layer) : res (layer F * result unit) :=
  match l with
  | LConv l => lift_load LConv (cv_load bm l s)
  | LFC l => lift_load LFC (fc_load bm l s)
  | LMaxPool l => lift_load LMaxPool (mp_load bm l s)
  | LSoftmax l => lift_load LSoftmax (sm_load l s)
  end.

(** The [empty()] layer of the same kind. *)
Definition empty_like (l : layer F) : res (layer F) :=
  match l with
  | LConv _ => e <- cv_empty bm ;; Done (LConv e)
  | LFC _ => e <- fc_empty bm ;; Done (LFC e)
  | LMaxPool _ => Done (LMaxPool mp_empty)
  | LSoftmax _ => e <- sm_empty bm ;; Done (LSoftmax e)
  end.

End Layers.

(** The serialized data are of this layer's kind. *)
Definition same_kind {F} (l : layer F) (s : serialized_layer) : Prop :=
  match l, s with
  | LConv _, SerialConvolutionalLayer _ | LFC _, SerialFullyConnectedLayer _
  | LMaxPool _, SerialMaxPoolLayer _ | LSoftmax _, SerialSoftMaxLayer _ => True
  | _, _ => False
  end.

(** A stored entry, if present, decodes to a value satisfying [P]. *)
Definition entry {K A} (keqb : K -> K -> bool) (m : @hmap K) (k : K) (p : parser A) (P : A -> Prop) : Prop :=
  forall b, hm_get keqb m k = Some b -> exists a, deserialize p b = Some a /\ P a.

(** The windows fit and the output can be allocated. *)
Definition window_sound (ins ks : shape) (stride depth : N) : Prop :=
  stride <> 0 /\ kernel_fits ins ks
  /\ allocatable (mkShape ((di ins - di ks) / stride + 1) ((dj ins - dj ks) / stride + 1) depth).

(** Stored layers whose loading cannot panic. *)
Definition loadable {F} {BT : Bits F} (s : serialized_layer) : Prop :=
  match s with
  | SerialFullyConnectedLayer m =>
      entry fc_key_eqb m FKWeights dec_tensor (fun t : tensor F => allocatable (tshape t))
      /\ entry fc_key_eqb m FKBias dec_tensor (fun t : tensor F => allocatable (tshape t))
      /\ entry fc_key_eqb m FKName dec_string (fun _ => True)
  | SerialConvolutionalLayer m =>
      entry cv_key_eqb m KKernels dec_tensors (fun kernels : list (tensor F) =>
        Forall (fun k => allocatable (tshape k)) kernels
        /\ entry cv_key_eqb m KInputShape dec_shape (fun ins => allocatable ins
             /\ entry cv_key_eqb m KStride dec_u32 (fun stride =>
                  forall k, In k kernels -> window_sound ins (tshape k) stride (len kernels))))
      /\ entry cv_key_eqb m KBiases dec_tensors (fun _ : list (tensor F) => True)
      /\ entry cv_key_eqb m KName dec_string (fun _ => True)
  | SerialMaxPoolLayer m =>
      entry mp_key_eqb m MKInputShape dec_shape (fun ins => allocatable ins
        /\ entry mp_key_eqb m MKMaskShape dec_shape (fun mask =>
             entry mp_key_eqb m MKStride dec_u32 (fun stride => window_sound ins mask stride (dk ins))))
      /\ entry mp_key_eqb m MKName dec_string (fun _ => True)
  | SerialSoftMaxLayer m =>
      entry sm_key_eqb m SKShape dec_shape allocatable
      /\ entry sm_key_eqb m SKName dec_string (fun _ => True)
  end.
