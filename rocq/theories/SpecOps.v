(** * Vocabulary for C03 and C16: histories of tensor operations and the windows the backward loops visit *)
From Verif Require Import Base Arith Helper Tensor Convolution Spec.

(** Of the windows covering [a], those the code visits: the first [e] of them, and not the first one when [a]
    lies within [stride] of its end. *)
Definition visited (n e stride a : N) : list N :=
  filter (fun i => (i <? e) && negb ((i =? 0) && (e <? a + stride))) (covering n e stride a).

Definition visited_products {F} {AR : Arith F} (rs : shape) (ks : N -> shape) (stride : N)
    (h : N -> N -> N -> N -> F) (g : N -> N -> N -> F) (a b c : N) : list F :=
  flat_map (fun k => flat_map (fun j => map (fun i =>
      fmul (h k (a - stride * i) (b - stride * j) c) (g i j k))
    (visited (di rs) (di (ks k)) stride a)) (visited (dj rs) (dj (ks k)) stride b)) (upto (dk rs)).

(** ** Operations on a pool of tensors, named by their position. [ONew] appends to the pool. *)
Section Ops.
Context {F : Type}.

Inductive tensor_op :=
| ONew (s : shape)
| OEmpty
| OGet (t : N) (x : index)
| OIndex (t : N) (x : index)
| OTotal (t : N)
| ONorm (t : N)
| OEq (a b : N)
| OSet (t : N) (x : index) (v : F)
| OFill (t : N) (v : F)
| OVec (t : N) (v : list F)
| OUniform (t : N) (range_ok : bool) (sample : nat -> F)
| OGaussian (t : N) (params_ok : bool) (sample : nat -> F)
| OAdd (a b r : N)
| OAddSelf (a b : N)
| OAddIndexed (a r : N) (l : list N)
| OScale (a : N) (c : F) (r : N)
| OScaleSelf (a : N) (c : F)
| OMul (a b r : N)
| OMulSelf (a b : N)
| ORelu (a m : N)
| OTranspose (a r : N)
| OMatMul (a b r : N)
| OMatMulFirst (a b r : N)
| OMatMulSecond (a b r : N)
| OMatMulAddRelu (x w b r : N)
| OFit (image kernel : shape) (stride : N)
| OFitDim (image kernel : shape) (stride : N)
| OCheckPool (image mask : shape) (stride : N) (r : shape)
| OMaxPool (image : N) (mask : shape) (stride r : N)
| OMaxPoolTrack (image : N) (mask : shape) (stride r : N) (origin : list N)
| OSoftmax (a r : N)
| OConv (image kernel bias stride r ch : N)
| OConvRelu (image kernel bias stride r ch : N)
| OConvOutgoing (incoming : N) (kernels : list N) (stride r : N)
| OConvKernel (incoming image stride ch r : N).

Context {AR : Arith F} (bm : build).
Notation T := (tensor F).

(** Write [x] over tensor [r]. *)
Definition put (p : list T) (r : N) (x : T) : res (list T) := vset p r x.

Fixpoint fetch_all (p : list T) (l : list N) : res (list T) :=
  match l with
  | [] => Done []
  | i :: l' => t <- vget p i ;; ts <- fetch_all p l' ;; Done (t :: ts)
  end.

Definition run_op (o : tensor_op) (p : list T) : res (list T) :=
  match o with
  | ONew s => t <- tensor_new bm s ;; Done (p ++ [t])
  | OEmpty => t <- tensor_empty bm ;; Done (p ++ [t])
  | OGet t x => t <- vget p t ;; _ <- get_item bm t x ;; Done p
  | OIndex t x => t <- vget p t ;; _ <- get_data_index bm t x ;; Done p
  | OTotal t => t <- vget p t ;; _ <- total_items bm t ;; Done p
  | ONorm t => t <- vget p t ;; let _ := get_norm t in Done p
  | OEq a b => a <- vget p a ;; b <- vget p b ;; let _ := tensor_eqb a b in Done p
  | OSet i x v => t <- vget p i ;; t' <- set_item bm t x v ;; put p i t'
  | OFill i v => t <- vget p i ;; put p i (fill_with_value t v)
  | OVec i v => t <- vget p i ;; '(t', _) <- fill_with_vec bm t v ;; put p i t'
  | OUniform i ok s => t <- vget p i ;; t' <- fill_with_uniform ok s t ;; put p i t'
  | OGaussian i ok s => t <- vget p i ;; t' <- fill_with_gaussian ok s t ;; put p i t'
  | OAdd a b r => a <- vget p a ;; b <- vget p b ;; t <- vget p r ;; put p r (add a b t)
  | OAddSelf i b => a <- vget p i ;; b <- vget p b ;; put p i (add_to_self a b)
  | OAddIndexed a r l => a <- vget p a ;; t <- vget p r ;; '(t', _) <- add_from_index_list bm a t l ;; put p r t'
  | OScale a c r => a <- vget p a ;; t <- vget p r ;; put p r (scale a c t)
  | OScaleSelf i c => a <- vget p i ;; put p i (scale_self a c)
  | OMul a b r => a <- vget p a ;; b <- vget p b ;; t <- vget p r ;; put p r (multiply_elementwise a b t)
  | OMulSelf i b => a <- vget p i ;; b <- vget p b ;; put p i (multiply_elementwise_self a b)
  | ORelu i m => a <- vget p i ;; t <- vget p m ;;
      let '(a', t', _) := relu_self_and_store_mask a t in p' <- put p i a' ;; put p' m t'
  | OTranspose a r => a <- vget p a ;; t <- vget p r ;; '(t', _) <- transpose_ij bm a t ;; put p r t'
  | OMatMul a b r => a <- vget p a ;; b <- vget p b ;; t <- vget p r ;; t' <- matrix_multiply bm a b t ;; put p r t'
  | OMatMulFirst a b r => a <- vget p a ;; b <- vget p b ;; t <- vget p r ;;
      '(t', _) <- matrix_multiply_transpose_first bm a b t ;; put p r t'
  | OMatMulSecond a b r => a <- vget p a ;; b <- vget p b ;; t <- vget p r ;;
      '(t', _) <- matrix_multiply_transpose_second bm a b t ;; put p r t'
  | OMatMulAddRelu x w b r => x <- vget p x ;; w <- vget p w ;; b <- vget p b ;; t <- vget p r ;;
      t' <- matrix_multiply_add_relu bm x w b t ;; put p r t'
  | OFit im k s => _ <- does_kernel_stride_fit_image bm im k s ;; Done p
  | OFitDim im k s => _ <- get_convolution_dim_fit bm im k s ;; Done p
  | OCheckPool im m s r => _ <- check_max_pooling_dimensions bm im m s r ;; Done p
  | OMaxPool a m s r => a <- vget p a ;; t <- vget p r ;; t' <- max_pool bm a m s t ;; put p r t'
  | OMaxPoolTrack a m s r o => a <- vget p a ;; t <- vget p r ;;
      '(t', _, _) <- max_pool_track_origin bm a m s t o ;; put p r t'
  | OSoftmax a r => a <- vget p a ;; t <- vget p r ;; t' <- softmax a t ;; put p r t'
  | OConv im k b s r ch => im <- vget p im ;; k <- vget p k ;; b <- vget p b ;; t <- vget p r ;;
      '(t', _) <- convolution_bias bm im k b s t ch ;; put p r t'
  | OConvRelu im k b s r ch => im <- vget p im ;; k <- vget p k ;; b <- vget p b ;; t <- vget p r ;;
      '(t', _) <- convolution_bias_relu bm im k b s t ch ;; put p r t'
  | OConvOutgoing g ks s r => g <- vget p g ;; ks <- fetch_all p ks ;; t <- vget p r ;;
      '(t', _) <- convolution_backprop_outgoing_gradient bm g ks s t ;; put p r t'
  | OConvKernel g im s ch r => g <- vget p g ;; im <- vget p im ;; t <- vget p r ;;
      '(t', _) <- convolution_backprop_kernel bm g im s ch t ;; put p r t'
  end.

Definition run_ops (h : list tensor_op) (p : list T) : res (list T) := forM h run_op p.

End Ops.
Arguments tensor_op F : clear implicits.

(** ** Which operations are legal, told from the shapes of the pool alone *)

(** The operand exists. *)
Definition there (p : list shape) (i : N) : Prop := i < len p.
Definition shape_at (p : list shape) (i : N) : shape := nth (N.to_nat i) p (mkShape 0 0 0).

(** Stride non-zero and kernel not larger than the image; the tile count fits in u32. *)
Definition windows_fit (im kernel : shape) (stride : N) : Prop :=
  stride <> 0 /\ kernel_fits im kernel /\ ~ extent_edge (di im) (di kernel) stride /\ ~ extent_edge (dj im) (dj kernel) stride.

Definition legal {F} (o : tensor_op F) (p : list shape) : Prop :=
  match o with
  | ONew s => allocatable s
  | OEmpty => True
  | OIndex t x => there p t /\ in_shape (shape_at p t) (ix x) (jx x) (kx x)
  | OGet t _ | OTotal t | ONorm t | OSet t _ _ | OFill t _ | OVec t _ | OScaleSelf t _ => there p t
  | OUniform t ok _ | OGaussian t ok _ => there p t /\ ok = true
  | OEq a b | OAddSelf a b | OMulSelf a b | ORelu a b | OTranspose a b | OSoftmax a b
  | OAddIndexed a b _ | OScale a _ b => there p a /\ there p b
  | OAdd a b r | OMul a b r | OMatMul a b r | OMatMulFirst a b r | OMatMulSecond a b r => there p a /\ there p b /\ there p r
  | OMatMulAddRelu x w b r => there p x /\ there p w /\ there p b /\ there p r
  | OFit im k s | OFitDim im k s | OCheckPool im k s _ => u32_shape im /\ windows_fit im k s
  | OMaxPool im m s r | OMaxPoolTrack im m s r _ => there p im /\ there p r /\ windows_fit (shape_at p im) m s
  | OConv im k b s r _ | OConvRelu im k b s r _ =>
      there p im /\ there p k /\ there p b /\ there p r /\ windows_fit (shape_at p im) (shape_at p k) s
  | OConvOutgoing g ks s r => there p g /\ there p r
      /\ forall k, In k ks -> there p k /\ windows_fit (shape_at p r) (shape_at p k) s
                              /\ outgoing_fits (shape_at p g) (shape_at p k) (shape_at p r) s
  | OConvKernel g im s _ r => there p g /\ there p im /\ there p r /\ windows_fit (shape_at p im) (shape_at p r) s
  end.

(** The shapes an operation adds to the pool. *)
Definition created {F} (o : tensor_op F) : list shape :=
  match o with ONew s => [s] | OEmpty => [mkShape 1 1 1] | _ => [] end.

Fixpoint legal_history {F} (h : list (tensor_op F)) (p : list shape) : Prop :=
  match h with
  | [] => True
  | o :: h' => legal o p /\ legal_history h' (p ++ created o)
  end.
