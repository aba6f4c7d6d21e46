(** * Model of src/tensor.rs (file input/output is in Serial.v) *)
From Verif Require Import Base Arith Helper.
Local Open Scope string_scope.
Local Open Scope N_scope.

(** tensor.rs:13-17 [struct Tensor]. *)
Record tensor (F : Type) := mkTensor { strides : stride3; tshape : shape; data : list F }.
Arguments mkTensor {F} _ _ _.
Arguments strides {F} _.
Arguments tshape {F} _.
Arguments data {F} _.

(** Assignment to the [data] field only. *)
Definition with_data {F} (t : tensor F) (d : list F) : tensor F :=
  mkTensor (strides t) (tshape t) d.

Section WithBuild.
Context (bm : build).
Context {F : Type} {AR : Arith F}.
Notation T := (tensor F).

(** tensor.rs:24 comparison of the two data vectors: equal lengths and [==] on every pair. *)
Fixpoint data_eqb (a b : list F) : bool :=
  match a, b with
  | [], [] => true
  | x :: a', y :: b' => feqb x y && data_eqb a' b'
  | _, _ => false
  end.

(** tensor.rs:19-28 [PartialEq::eq] for Tensor. *)
Definition tensor_eqb (a b : T) : bool :=
  if negb (shape_eqb (tshape a) (tshape b)) then false
  else if negb (data_eqb (data a) (data b)) then false
  else true.

(** tensor.rs:30-32 [PartialEq::ne] for Tensor. *)
Definition tensor_neb (a b : T) : bool := negb (tensor_eqb a b).

(** tensor.rs:36-43 [Tensor::new]. *)
Definition tensor_new (s : shape) : res T :=
  n <- total_size bm s ;;
  st <- stride_of_shape bm s ;;
  Done (mkTensor st s (repeat fzero (N.to_nat n))).

(** tensor.rs:45-52 [Tensor::empty]. *)
Definition tensor_empty : res T := tensor_new (mkShape 1 1 1).

(** tensor.rs:54-56 [Tensor::total_items]. *)
Definition total_items (t : T) : res N := total_size bm (tshape t).

(** tensor.rs:74-76 [Tensor::get_data_index]. *)
Definition get_data_index (t : T) (x : index) : res N := stride_mul bm (strides t) x.

(** tensor.rs:78-80 [Tensor::get_shape]. *)
Definition get_shape (t : T) : shape := tshape t.

(** [t.data[id]] and [t.data[id] = v], used by all loops below. *)
Definition data_get (t : T) (id : N) : res F := vget (data t) id.
Definition data_set (t : T) (id : N) (v : F) : res T :=
  d <- vset (data t) id v ;; Done (with_data t d).

(** tensor.rs:58-63 [Tensor::set_item]. *)
Definition set_item (t : T) (x : index) (v : F) : res T :=
  if fits_index (tshape t) x then
    id <- get_data_index t x ;;
    data_set t id v
  else Done t.

(** tensor.rs:65-72 [Tensor::get_item]. *)
Definition get_item (t : T) (x : index) : res F :=
  if fits_index (tshape t) x then
    id <- get_data_index t x ;;
    data_get t id
  else Done fzero.

(** tensor.rs:82-88 [Tensor::get_norm]. *)
Definition get_norm (t : T) : F :=
  fsqrt (fold_left (fun total d => fadd total (fpowi2 d)) (data t) fzero).

(** tensor.rs:90-96 [Tensor::fill_with_uniform]. [rand] is not modelled: [sample n] is the n-th value
    drawn and [range_ok] is the outcome of the assertions in [Uniform::new_inclusive]. *)
Definition fill_with_uniform (range_ok : bool) (sample : nat -> F) (t : T) : res T :=
  if range_ok then Done (with_data t (map sample (seq 0 (length (data t)))))
  else Panic PAssert.

(** tensor.rs:98-104 [Tensor::fill_with_gaussian]. [params_ok]: [Normal::new] returned [Ok]. *)
Definition fill_with_gaussian (params_ok : bool) (sample : nat -> F) (t : T) : res T :=
  if params_ok then Done (with_data t (map sample (seq 0 (length (data t)))))
  else Panic PUnwrap.

(** tensor.rs:106-110 [Tensor::fill_with_value]. *)
Definition fill_with_value (t : T) (v : F) : T :=
  with_data t (map (fun _ => v) (data t)).

(** tensor.rs:112-118 [Tensor::fill_with_vec]. *)
Definition fill_with_vec (t : T) (d : list F) : res (T * result unit) :=
  n <- total_items t ;;
  if negb (len d =? n) then Done (t, Err "Vec data did not contain the correct number of items")
  else Done (with_data t d, Ok tt).

(** tensor.rs:132-141 [Tensor::add]. *)
Definition add (t1 t2 r : T) : T :=
  if shape_eqb (tshape t1) (tshape t2) && shape_eqb (tshape t1) (tshape r) then
    with_data r (zip_update (fun _ v => v) (data r) (zip_with fadd (data t1) (data t2)))
  else r.

(** tensor.rs:142-151 [Tensor::add_to_self]; returns the new [tensor1]. *)
Definition add_to_self (t1 t2 : T) : T :=
  if shape_eqb (tshape t1) (tshape t2) then
    with_data t1 (zip_update fadd (data t1) (data t2))
  else t1.

(** tensor.rs:153-170 [Tensor::add_from_index_list]; returns the new [tensor2]. *)
Definition add_from_index_list (t1 t2 : T) (l : list N) : res (T * result unit) :=
  n1 <- total_size bm (get_shape t1) ;;
  if n1 <? len l then Done (t2, Err "Index list is too long")
  else
    n2 <- total_size bm (get_shape t2) ;;
    tryM (combine (Nrange 0 (len l)) l)
      (fun '(t1_index, t2_index) t2 =>
         if n2 <=? t2_index then Done (t2, Err "Tensor 2 index out of bounds")
         else
           a <- data_get t2 t2_index ;;
           b <- data_get t1 t1_index ;;
           t2' <- data_set t2 t2_index (fadd a b) ;;
           Done (t2', Ok tt))
      t2.

(** tensor.rs:172-179 [Tensor::scale]. *)
Definition scale (t : T) (c : F) (r : T) : T :=
  if shape_eqb (tshape t) (tshape r) then
    with_data r (zip_update (fun _ op => fmul op c) (data r) (data t))
  else r.

(** tensor.rs:181-186 [Tensor::scale_self]. *)
Definition scale_self (t : T) (c : F) : T :=
  with_data t (map (fun x => fmul x c) (data t)).

(** tensor.rs:187-196 [Tensor::multiply_elementwise_self]; returns the new [tensor1]. *)
Definition multiply_elementwise_self (t1 t2 : T) : T :=
  if shape_eqb (tshape t1) (tshape t2) then
    with_data t1 (zip_update fmul (data t1) (data t2))
  else t1.

(** tensor.rs:197-206 [Tensor::multiply_elementwise]. *)
Definition multiply_elementwise (t1 t2 r : T) : T :=
  if shape_eqb (tshape t1) (tshape t2) && shape_eqb (tshape t1) (tshape r) then
    with_data r (zip_update (fun _ v => v) (data r) (zip_with fmul (data t1) (data t2)))
  else r.

(** tensor.rs:215-224, loop body of [relu_self_and_store_mask] over the zipped data; elements beyond the
    shorter vector keep their value. *)
Fixpoint relu_mask_loop (i m : list F) : list F * list F :=
  match i, m with
  | x :: i', _ :: m' =>
      let '(ri, rm) := relu_mask_loop i' m' in
      if fgtb x fzero then (x :: ri, fone :: rm) else (fzero :: ri, fzero :: rm)
  | _, _ => (i, m)
  end.

(** tensor.rs:208-226 [Tensor::relu_self_and_store_mask]; returns (input, mask, result). *)
Definition relu_self_and_store_mask (input mask : T) : T * T * result unit :=
  if negb (shape_eqb (get_shape input) (get_shape mask)) then
    (input, mask, Err "relu_self_and_store_mask: Input and mask must have the same shape")
  else
    let '(di', dm') := relu_mask_loop (data input) (data mask) in
    (with_data input di', with_data mask dm', Ok tt).

(** The three nested loops [for k in 0..dk { for j in 0..dj { for i in 0..di { .. }}}] over a shape
    used by transpose_ij, the matrix products and max pooling. *)
Definition for_kji {S} (s : shape) (body : N -> N -> N -> S -> res S) (st : S) : res S :=
  for_ 0 (dk s) (fun k =>
    for_ 0 (dj s) (fun j =>
      for_ 0 (di s) (fun i => body i j k))) st.

(** tensor.rs:228-255 [Tensor::transpose_ij]. *)
Definition transpose_ij (input output : T) : res (T * result unit) :=
  let ishape := get_shape input in
  let oshape := get_shape output in
  if negb (dk ishape =? dk oshape) then
    Done (output, Err "Third dimension must match for transpose ij")
  else if negb (di ishape =? dj oshape) then
    Done (output, Err "i and j of input and output must match")
  else if negb (dj ishape =? di oshape) then
    Done (output, Err "j and i of input and output must match")
  else
    r <- for_kji oshape (fun i j k out =>
           oid <- get_data_index out (mkIndex i j k) ;;
           iid <- get_data_index input (mkIndex j i k) ;;
           v <- data_get input iid ;;
           data_set out oid v) output ;;
    Done (r, Ok tt).

(** tensor.rs:373-387 [Tensor::check_matrix_multiply_dimensions]. *)
Definition check_matrix_multiply_dimensions (st1 st2 sr : shape) : bool :=
  if negb (dk st1 =? dk st2) || negb (dk st1 =? dk sr) then false
  else if negb (dj st1 =? di st2) || negb (di st1 =? di sr) || negb (dj st2 =? dj sr) then false
  else true.

(** The accumulation [for ii in 0..n { acc += t1.data[ix1(ii)] * t2.data[ix2(ii)] }] starting from 0.0,
    the inner loop of the matrix products: tensor.rs:275-287, 315-327, 350-362, 412-426. *)
Definition dot_loop (n : N) (t1 t2 : T) (ix1 ix2 : N -> index) : res F :=
  for_ 0 n (fun ii acc =>
    id1 <- get_data_index t1 (ix1 ii) ;;
    id2 <- get_data_index t2 (ix2 ii) ;;
    a <- data_get t1 id1 ;;
    b <- data_get t2 id2 ;;
    Done (fadd acc (fmul a b))) fzero.

(** tensor.rs:257-296 [Tensor::matrix_multiply_transpose_first]. *)
Definition matrix_multiply_transpose_first (t1 t2 r : T) : res (T * result unit) :=
  let shape_1 := get_shape t1 in
  let shape_2 := get_shape t2 in
  let shape_r := get_shape r in
  if negb (check_matrix_multiply_dimensions (shape_transpose_ij shape_1) shape_2 shape_r) then
    Done (r, Err "Shapes do not match for matrix multiply transpose")
  else
    r' <- for_kji shape_r (fun i j k r =>
            v <- dot_loop (di shape_1) t1 t2
                   (fun ii => mkIndex ii i k) (fun ii => mkIndex ii j k) ;;
            id <- get_data_index r (mkIndex i j k) ;;
            data_set r id v) r ;;
    Done (r', Ok tt).

(** tensor.rs:297-336 [Tensor::matrix_multiply_transpose_second]. *)
Definition matrix_multiply_transpose_second (t1 t2 r : T) : res (T * result unit) :=
  let shape_1 := get_shape t1 in
  let shape_2 := get_shape t2 in
  let shape_r := get_shape r in
  if negb (check_matrix_multiply_dimensions shape_1 (shape_transpose_ij shape_2) shape_r) then
    Done (r, Err "Shapes do not match for matrix multiply transpose")
  else
    r' <- for_kji shape_r (fun i j k r =>
            v <- dot_loop (dj shape_1) t1 t2
                   (fun ii => mkIndex i ii k) (fun ii => mkIndex j ii k) ;;
            id <- get_data_index r (mkIndex i j k) ;;
            data_set r id v) r ;;
    Done (r', Ok tt).

(** tensor.rs:337-371 [Tensor::matrix_multiply]. *)
Definition matrix_multiply (t1 t2 r : T) : res T :=
  let sr := get_shape r in
  let s1 := get_shape t1 in
  if check_matrix_multiply_dimensions (get_shape t1) (get_shape t2) (get_shape r) then
    for_kji sr (fun i j k r =>
      v <- dot_loop (dj s1) t1 t2
             (fun ii => mkIndex i ii k) (fun ii => mkIndex ii j k) ;;
      id <- get_data_index r (mkIndex i j k) ;;
      data_set r id v) r
  else Done r.

(** tensor.rs:389-445 [Tensor::matrix_multiply_add_relu]. *)
Definition matrix_multiply_add_relu (input weights bias r : T) : res T :=
  if check_matrix_multiply_dimensions (get_shape weights) (get_shape input) (get_shape r) then
    if shape_eqb (tshape bias) (tshape r) then
      let sr := get_shape r in
      let sw := get_shape weights in
      for_kji sr (fun i j k r =>
        v <- dot_loop (dj sw) weights input
               (fun ii => mkIndex i ii k) (fun ii => mkIndex ii j k) ;;
        bid <- get_data_index bias (mkIndex i j k) ;;
        id <- get_data_index r (mkIndex i j k) ;;
        b <- data_get bias bid ;;
        data_set r id (fmax (fadd v b) fzero)) r
    else Done r
  else Done r.

(** tensor.rs:447-460 [Tensor::does_kernel_stride_fit_image]. *)
Definition does_kernel_stride_fit_image (image kernel : shape) (stride : N) : res bool :=
  d0 <- u32_sub bm (di image) (di kernel) ;;
  m0 <- u32_rem d0 stride ;;
  if negb (m0 =? 0) then Done false
  else
    d1 <- u32_sub bm (dj image) (dj kernel) ;;
    m1 <- u32_rem d1 stride ;;
    if negb (m1 =? 0) then Done false else Done true.

(** tensor.rs:462-470 [Tensor::get_convolution_dim_fit]. *)
Definition get_convolution_dim_fit (image kernel : shape) (stride : N) : res (N * N) :=
  d0 <- u32_sub bm (di image) (di kernel) ;;
  q0 <- u32_div d0 stride ;;
  f0 <- u32_add bm q0 1 ;;
  d1 <- u32_sub bm (dj image) (dj kernel) ;;
  q1 <- u32_div d1 stride ;;
  f1 <- u32_add bm q1 1 ;;
  Done (f0, f1).

(** tensor.rs:474-507 [Tensor::check_max_pooling_dimensions]. *)
Definition check_max_pooling_dimensions (image mask : shape) (stride : N) (r : shape) : res bool :=
  if negb (dk r =? dk image) then Done false
  else
    d0 <- u32_sub bm (di image) (di mask) ;;
    m0 <- u32_rem d0 stride ;;
    if negb (m0 =? 0) then Done false
    else
      d1 <- u32_sub bm (dj image) (dj mask) ;;
      m1 <- u32_rem d1 stride ;;
      if negb (m1 =? 0) then Done false
      else
        e0 <- u32_sub bm (di image) (di mask) ;;
        q0 <- u32_div e0 stride ;;
        f0 <- u32_add bm q0 1 ;;
        e1 <- u32_sub bm (dj image) (dj mask) ;;
        q1 <- u32_div e1 stride ;;
        f1 <- u32_add bm q1 1 ;;
        if negb (di r =? f0) then Done false
        else if negb (dj r =? f1) then Done false
        else Done true.

(** The position [(i*stride+ii, j*stride+jj, k)] read by the pooling loops, tensor.rs:525-529 and 572-576. *)
Definition pool_index (stride i j k ii jj : N) : res index :=
  a <- u32_mul bm i stride ;;
  a' <- u32_add bm a ii ;;
  b <- u32_mul bm j stride ;;
  b' <- u32_add bm b jj ;;
  Done (mkIndex a' b' k).

(** tensor.rs:509-540 [Tensor::max_pool]. *)
Definition max_pool (image : T) (mask : shape) (stride : N) (r : T) : res T :=
  ok <- check_max_pooling_dimensions (get_shape image) mask stride (get_shape r) ;;
  if ok then
    for_kji (get_shape r) (fun i j k r =>
      running_max <-
        for_ 0 (dj mask) (fun jj =>
          for_ 0 (di mask) (fun ii running_max =>
            x <- pool_index stride i j k ii jj ;;
            current_item <- get_item image x ;;
            Done (if fgtb current_item running_max then current_item else running_max)))
          fninf ;;
      set_item r (mkIndex i j k) running_max) r
  else Done r.

(** tensor.rs:541-590 [Tensor::max_pool_track_origin]; returns (result, origin_list, Result). *)
Definition max_pool_track_origin (image : T) (mask : shape) (stride : N) (r : T) (origin : list N)
  : res (T * list N * result unit) :=
  ok <- check_max_pooling_dimensions (get_shape image) mask stride (get_shape r) ;;
  if negb ok then Done (r, origin, Err "Max pooling dimensions don't match")
  else
    n <- total_size bm (get_shape r) ;;
    if negb (n =? len origin) then
      Done (r, origin, Err "Origin tracker list size is not equal to number of output items")
    else
      '(r', o') <-
        for_kji (get_shape r) (fun i j k '(r, origin) =>
          output_index <- get_data_index r (mkIndex i j k) ;;
          '(running_max, input_index) <-
            for_ 0 (dj mask) (fun jj =>
              for_ 0 (di mask) (fun ii '(running_max, input_index) =>
                x <- pool_index stride i j k ii jj ;;
                current_item <- get_item image x ;;
                if fgtb current_item running_max then
                  id <- get_data_index image x ;;
                  Done (current_item, id)
                else Done (running_max, input_index)))
              (fninf, 0) ;;
          r' <- set_item r (mkIndex i j k) running_max ;;
          o' <- vset origin output_index input_index ;;
          Done (r', o')) (r, origin) ;;
      Done (r', o', Ok tt).

(** tensor.rs:592-604 [Tensor::softmax]. *)
Definition softmax (input output : T) : res T :=
  if shape_eqb (get_shape input) (get_shape output) then
    '(out, sum) <-
      for_ 0 (len (data input)) (fun i '(out, sum) =>
        x <- data_get input i ;;
        let e := fexp x in
        out' <- data_set out i e ;;
        Done (out', fadd sum e)) (output, fzero) ;;
    Done (with_data out (map (fun f => fdiv f sum) (data out)))
  else Done output.

End WithBuild.
