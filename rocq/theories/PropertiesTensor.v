(** * C01, C02, C04 - C09, C11: tensors

    Stated for every scalar type with arbitrary operations; the examples use f32. *)
From Verif Require Import Base Arith Helper Tensor Float32 Spec ProofsTensor ProofsConv Demo.

(** ** C01 *)
Theorem C01_flat_index_bijection : forall F (bm : build) (t : tensor F), wf t ->
  let s := tshape t in
  (forall i j k, in_shape s i j k ->
     get_data_index bm t (mkIndex i j k) = Done (i + di s * j + di s * dj s * k)
     /\ i + di s * j + di s * dj s * k < di s * dj s * dk s)
  /\ (forall i j k i' j' k' p, in_shape s i j k -> in_shape s i' j' k' ->
        get_data_index bm t (mkIndex i j k) = Done p -> get_data_index bm t (mkIndex i' j' k') = Done p ->
        (i, j, k) = (i', j', k'))
  /\ (forall p, p < di s * dj s * dk s ->
        exists i j k, in_shape s i j k /\ get_data_index bm t (mkIndex i j k) = Done p).
Proof. exact @flat_index_bijection. Qed.
Print Assumptions C01_flat_index_bijection.

Example C01_case : wf (tn (mkShape 2 3 2) [1;2;3;4;5;6;7;8;9;10;11;12]%Z).
Proof. demo_wf. Qed.

(** Such tensors are what the constructor returns. *)
Theorem C01_constructed : forall F (AR : Arith F) bm s, allocatable s ->
  exists t, tensor_new bm s = Done t /\ wf t /\ tshape t = s.
Proof. exact @tensor_new_wf. Qed.
Print Assumptions C01_constructed.

(** ** C02 *)
Theorem C02_write_history : forall F (AR : Arith F) bm s (h : list (write F)), allocatable s ->
  exists t0 t, tensor_new bm s = Done t0 /\ forM h (run_write bm) t0 = Done t
    /\ forall x, get_item bm t x = Done (if fits_index s x then last_written h x else fzero).
Proof. exact @write_history. Qed.
Print Assumptions C02_write_history.

(** [fits_index] is the range test. *)
Theorem C02_fits_index : forall s i j k, fits_index s (mkIndex i j k) = true <-> in_shape s i j k.
Proof. exact fits_index_spec. Qed.
Print Assumptions C02_fits_index.

Example C02_case :
  allocatable (mkShape 2 2 1)
  /\ bits (last_written [WSet (mkIndex 1 0 0) (f32_of_Z 5); WSet (mkIndex 7 0 0) (f32_of_Z 9);
                         WSet (mkIndex 1 0 0) (f32_of_Z 6)] (mkIndex 1 0 0)) = bits (f32_of_Z 6)
  /\ bits (last_written [WFill (f32_of_Z 3); WSet (mkIndex 1 0 0) (f32_of_Z 5)] (mkIndex 0 1 0)) = bits (f32_of_Z 3).
Proof. split; [repeat split; reflexivity|]. split; vm_compute; reflexivity. Qed.

(** ** C04 *)
Theorem C04_debug : forall F (AR : Arith F) s, u32_shape s ->
  ((exists t : tensor F, tensor_new Debug s = Done t) <-> di s * dj s < W32 /\ di s * dj s * dk s < W32)
  /\ (forall t : tensor F, tensor_new Debug s = Done t -> tshape t = s /\ accessible Debug t).
Proof. exact @tensor_new_debug. Qed.
Print Assumptions C04_debug.

(** A release build always constructs, and the tensor is usable exactly when the element count fits in u32. *)
Theorem C04_release_exact_partial : forall F (AR : Arith F) s, u32_shape s ->
  exists t : tensor F, tensor_new Release s = Done t /\ tshape t = s
    /\ (accessible Release t <-> di s * dj s * dk s < W32).
Proof. exact @tensor_new_release. Qed.
Print Assumptions C04_release_exact_partial.

Theorem C04_release_refuted :
  exists (s : shape) (t : tensor f32), u32_shape s /\ tensor_new Release s = Done t
    /\ in_shape (tshape t) 0 0 0 /\ get_item Release t (mkIndex 0 0 0) = Panic PBounds.
Proof.
  exists (mkShape 65536 65536 1), (mkTensor (mkStride 1 65536 0) (mkShape 65536 65536 1) []).
  split; [vm_compute; auto|]. split; [vm_compute; reflexivity|]. split; [vm_compute; auto|]. vm_compute; reflexivity.
Qed.
Print Assumptions C04_release_refuted.

Example C04_case : u32_shape (mkShape 3 4 5) /\ 3 * 4 < W32 /\ 3 * 4 * 5 < W32.
Proof. repeat split; reflexivity. Qed.

(** ** C05 *)
Theorem C05_add : forall F (AR : Arith F) bm (t1 t2 r : tensor F) s f1 f2 g,
  holds bm t1 s f1 -> holds bm t2 s f2 -> holds bm r s g ->
  holds bm (add t1 t2 r) s (fun i j k => fadd (f1 i j k) (f2 i j k)).
Proof. exact @add_holds. Qed.
Print Assumptions C05_add.

Theorem C05_add_to_self : forall F (AR : Arith F) bm (t1 t2 : tensor F) s f1 f2,
  holds bm t1 s f1 -> holds bm t2 s f2 ->
  holds bm (add_to_self t1 t2) s (fun i j k => fadd (f1 i j k) (f2 i j k)).
Proof. exact @add_to_self_holds. Qed.
Print Assumptions C05_add_to_self.

Theorem C05_multiply_elementwise : forall F (AR : Arith F) bm (t1 t2 r : tensor F) s f1 f2 g,
  holds bm t1 s f1 -> holds bm t2 s f2 -> holds bm r s g ->
  holds bm (multiply_elementwise t1 t2 r) s (fun i j k => fmul (f1 i j k) (f2 i j k)).
Proof. exact @multiply_holds. Qed.
Print Assumptions C05_multiply_elementwise.

Theorem C05_multiply_elementwise_self : forall F (AR : Arith F) bm (t1 t2 : tensor F) s f1 f2,
  holds bm t1 s f1 -> holds bm t2 s f2 ->
  holds bm (multiply_elementwise_self t1 t2) s (fun i j k => fmul (f1 i j k) (f2 i j k)).
Proof. exact @multiply_self_holds. Qed.
Print Assumptions C05_multiply_elementwise_self.

Theorem C05_scale : forall F (AR : Arith F) bm (t : tensor F) c r s f g,
  holds bm t s f -> holds bm r s g -> holds bm (scale t c r) s (fun i j k => fmul (f i j k) c).
Proof. exact @scale_holds. Qed.
Print Assumptions C05_scale.

Theorem C05_scale_self : forall F (AR : Arith F) bm (t : tensor F) c s f,
  holds bm t s f -> holds bm (scale_self t c) s (fun i j k => fmul (f i j k) c).
Proof. exact @scale_self_holds. Qed.
Print Assumptions C05_scale_self.

Theorem C05_mismatch_unchanged : forall F (AR : Arith F) (t1 t2 r : tensor F) c,
  (~ (tshape t1 = tshape t2 /\ tshape t1 = tshape r) -> add t1 t2 r = r /\ multiply_elementwise t1 t2 r = r)
  /\ (tshape t1 <> tshape t2 -> add_to_self t1 t2 = t1 /\ multiply_elementwise_self t1 t2 = t1)
  /\ (tshape t1 <> tshape r -> scale t1 c r = r).
Proof. exact @elementwise_mismatch. Qed.
Print Assumptions C05_mismatch_unchanged.

Example C05_case :
  let a := tn (mkShape 2 1 2) [1;2;3;4]%Z in let b := tn (mkShape 2 1 2) [10;20;30;40]%Z in
  holds Debug a (mkShape 2 1 2) (at_ a) /\ holds Debug b (mkShape 2 1 2) (at_ b)
  /\ out0 (get_item Debug (add a b a) (mkIndex 1 0 1)) = Some (bits (f32_of_Z 44)).
Proof. split; [demo_hold|]. split; [demo_hold|]. vm_compute; reflexivity. Qed.

(** ** C06 *)
Theorem C06_fill_with_vec : forall F (AR : Arith F) bm (t : tensor F) v, wf t ->
  let s := tshape t in
  (len v = di s * dj s * dk s ->
     exists t', fill_with_vec bm t v = Done (t', Ok tt) /\ wf t' /\ tshape t' = s
       /\ forall i j k, in_shape s i j k ->
            exists x, get_item bm t' (mkIndex i j k) = Done x
                      /\ nth_error v (N.to_nat (i + di s * j + di s * dj s * k)) = Some x)
  /\ (len v <> di s * dj s * dk s -> exists e, fill_with_vec bm t v = Done (t, Err e)).
Proof. exact @fill_with_vec_spec. Qed.
Print Assumptions C06_fill_with_vec.

Example C06_case :
  let t := tn (mkShape 2 1 2) [0;0;0;0]%Z in
  wf t /\ len (map f32_of_Z [1;2;3;4]%Z) = 2 * 1 * 2.
Proof. split; [demo_wf|reflexivity]. Qed.

(** ** C07 *)
Theorem C07_transpose : forall F (AR : Arith F) bm (input output : tensor F) si so f g,
  holds bm input si f -> holds bm output so g ->
  (same_but_swapped si so ->
     exists out, transpose_ij bm input output = Done (out, Ok tt) /\ holds bm out so (fun i j k => f j i k))
  /\ (~ same_but_swapped si so -> exists e, transpose_ij bm input output = Done (output, Err e)).
Proof. exact @transpose_spec. Qed.
Print Assumptions C07_transpose.

Theorem C07_transpose_involution : forall F (AR : Arith F) bm (input mid back : tensor F),
  wf input -> wf mid -> wf back -> same_but_swapped (tshape input) (tshape mid) -> tshape back = tshape input ->
  exists m, transpose_ij bm input mid = Done (m, Ok tt) /\ transpose_ij bm m back = Done (input, Ok tt).
Proof. exact @transpose_involution. Qed.
Print Assumptions C07_transpose_involution.

Example C07_case :
  let a := tn (mkShape 2 3 1) [1;2;3;4;5;6]%Z in let b := tn (mkShape 3 2 1) [0;0;0;0;0;0]%Z in
  wf a /\ wf b /\ same_but_swapped (tshape a) (tshape b)
  /\ out2 (transpose_ij Debug a b) = Some (ints [1;3;5;2;4;6]%Z).
Proof. split; [demo_wf|]. split; [demo_wf|]. split; [repeat split|]. vm_compute; reflexivity. Qed.

(** ** C08 *)
Theorem C08_matrix_multiply : forall F (AR : Arith F) bm (t1 t2 r : tensor F) s1 s2 sr f1 f2 g,
  holds bm t1 s1 f1 -> holds bm t2 s2 f2 -> holds bm r sr g ->
  (mm_shapes s1 s2 sr ->
     exists r', matrix_multiply bm t1 t2 r = Done r'
       /\ holds bm r' sr (fun i j k => sum (map (fun ii => fmul (f1 i ii k) (f2 ii j k)) (upto (dj s1)))))
  /\ (~ mm_shapes s1 s2 sr -> matrix_multiply bm t1 t2 r = Done r).
Proof. exact @matrix_multiply_spec. Qed.
Print Assumptions C08_matrix_multiply.

Example C08_case :
  let a := tn (mkShape 2 2 1) [1;2;3;4]%Z in let b := tn (mkShape 2 1 1) [5;6]%Z in
  let r := tn (mkShape 2 1 1) [0;0]%Z in
  wf a /\ wf b /\ wf r /\ mm_shapes (tshape a) (tshape b) (tshape r)
  /\ out1 (matrix_multiply Debug a b r) = Some (ints [23;34]%Z).
Proof. split; [demo_wf|]. split; [demo_wf|]. split; [demo_wf|]. split; [repeat split|]. vm_compute; reflexivity. Qed.

(** ** C09 *)
Theorem C09_transpose_first : forall F (AR : Arith F) bm (a b r at_ : tensor F),
  wf a -> wf b -> wf r -> wf at_ -> same_but_swapped (tshape a) (tshape at_) ->
  (mm_shapes (tshape at_) (tshape b) (tshape r) ->
     exists at' p, transpose_ij bm a at_ = Done (at', Ok tt) /\ matrix_multiply bm at' b r = Done p
       /\ matrix_multiply_transpose_first bm a b r = Done (p, Ok tt))
  /\ (~ mm_shapes (tshape at_) (tshape b) (tshape r) ->
        exists e, matrix_multiply_transpose_first bm a b r = Done (r, Err e)).
Proof. exact @transpose_first_spec. Qed.
Print Assumptions C09_transpose_first.

Theorem C09_transpose_second : forall F (AR : Arith F) bm (a b r bt : tensor F),
  wf a -> wf b -> wf r -> wf bt -> same_but_swapped (tshape b) (tshape bt) ->
  (mm_shapes (tshape a) (tshape bt) (tshape r) ->
     exists bt' p, transpose_ij bm b bt = Done (bt', Ok tt) /\ matrix_multiply bm a bt' r = Done p
       /\ matrix_multiply_transpose_second bm a b r = Done (p, Ok tt))
  /\ (~ mm_shapes (tshape a) (tshape bt) (tshape r) ->
        exists e, matrix_multiply_transpose_second bm a b r = Done (r, Err e)).
Proof. exact @transpose_second_spec. Qed.
Print Assumptions C09_transpose_second.

Example C09_case :
  let a := tn (mkShape 2 3 1) [1;2;3;4;5;6]%Z in let at_ := tn (mkShape 3 2 1) [0;0;0;0;0;0]%Z in
  let b := tn (mkShape 2 1 1) [1;1]%Z in let r := tn (mkShape 3 1 1) [0;0;0]%Z in
  wf a /\ wf at_ /\ wf b /\ wf r /\ same_but_swapped (tshape a) (tshape at_)
  /\ mm_shapes (tshape at_) (tshape b) (tshape r)
  /\ out2 (matrix_multiply_transpose_first Debug a b r) = Some (ints [3;7;11]%Z).
Proof.
  split; [demo_wf|]. split; [demo_wf|]. split; [demo_wf|]. split; [demo_wf|]. split; [repeat split|].
  split; [repeat split|]. vm_compute; reflexivity.
Qed.

(** ** C11 *)
Theorem C11_scatter_add : forall F (AR : Arith F) bm (src dst : tensor F) s1 s2 f g l,
  holds bm src s1 (fun i j k => f (flat s1 i j k)) -> holds bm dst s2 (fun i j k => g (flat s2 i j k)) ->
  (len l <= di s1 * dj s1 * dk s1 -> (forall p, In p l -> p < di s2 * dj s2 * dk s2) ->
     exists d, add_from_index_list bm src dst l = Done (d, Ok tt)
       /\ holds bm d s2 (fun i j k => fold_left fadd (map f (sources l (flat s2 i j k))) (g (flat s2 i j k))))
  /\ (len l <= di s1 * dj s1 * dk s1 -> (exists p, In p l /\ di s2 * dj s2 * dk s2 <= p) ->
     exists d e, add_from_index_list bm src dst l = Done (d, Err e)
       /\ holds bm d s2 (fun i j k => fold_left fadd
              (map f (sources (prefix_below (di s2 * dj s2 * dk s2) l) (flat s2 i j k))) (g (flat s2 i j k))))
  /\ (di s1 * dj s1 * dk s1 < len l -> exists e, add_from_index_list bm src dst l = Done (dst, Err e)).
Proof. exact @scatter_add_spec. Qed.
Print Assumptions C11_scatter_add.

Example C11_case :
  let src := tn (mkShape 3 1 1) [1;2;4]%Z in let dst := tn (mkShape 2 1 1) [10;20]%Z in
  wf src /\ wf dst /\ sources [1;0;1] 1 = [0;2]
  /\ out2 (add_from_index_list Debug src dst [1;0;1]) = Some (ints [12;25]%Z).
Proof. split; [demo_wf|]. split; [demo_wf|]. split; vm_compute; reflexivity. Qed.
