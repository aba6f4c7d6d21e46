(** * Model of src/tensor/operations/convolution.rs *)
From Verif Require Import Base Arith Helper Tensor.
Local Open Scope string_scope.
Local Open Scope N_scope.

Section WithBuild.
Context (bm : build).
Context {F : Type} {AR : Arith F}.
Notation T := (tensor F).

(** convolution.rs:4-44 [check_convolution_dimensions]. *)
Definition check_convolution_dimensions (image kernel : shape) (stride : N) (r : shape) (channel : N)
  : res (result unit) :=
  if negb (dk image =? dk kernel) then
    Done (Err "Third dimension of image and shpe don't match")
  else
    d0 <- u32_sub bm (di image) (di kernel) ;;
    m0 <- u32_rem d0 stride ;;
    if negb (m0 =? 0) then
      Done (Err "First dimensions of kernel and shape do not match with stride")
    else
      d1 <- u32_sub bm (dj image) (dj kernel) ;;
      m1 <- u32_rem d1 stride ;;
      if negb (m1 =? 0) then
        Done (Err "Secon dimensions of kernel and shape do not match with stride")
      else
        e0 <- u32_sub bm (di image) (di kernel) ;;
        q0 <- u32_div e0 stride ;;
        f0 <- u32_add bm q0 1 ;;
        e1 <- u32_sub bm (dj image) (dj kernel) ;;
        q1 <- u32_div e1 stride ;;
        f1 <- u32_add bm q1 1 ;;
        if negb (di r =? f0) then
          Done (Err "Results shape first dimension does not match with stride")
        else if negb (dj r =? f1) then
          Done (Err "Results shape second dimension does not match with stride")
        else if dk r <=? channel then Done (Err "Results channel is too high")
        else Done (Ok tt).

(** convolution.rs:77-97 and 142-163, the identical accumulation over the kernel in both forward
    functions, for output position (i, j). *)
Definition conv_window (image kernel : T) (stride i j : N) : res F :=
  image_start_i <- u32_mul bm i stride ;;
  image_start_j <- u32_mul bm j stride ;;
  for_kji (get_shape kernel) (fun ki kj kk acc =>
    kernel_id <- get_data_index bm kernel (mkIndex ki kj kk) ;;
    ii <- u32_add bm image_start_i ki ;;
    jj <- u32_add bm image_start_j kj ;;
    image_id <- get_data_index bm image (mkIndex ii jj kk) ;;
    a <- data_get image image_id ;;
    b <- data_get kernel kernel_id ;;
    Done (fadd acc (fmul a b))) fzero.

(** convolution.rs:46-109 [convolution_bias]. *)
Definition convolution_bias (image kernel bias : T) (stride : N) (r : T) (channel : N)
  : res (T * result unit) :=
  chk <- check_convolution_dimensions (get_shape image) (get_shape kernel) stride (get_shape r) channel ;;
  match chk with
  | Err e => Done (r, Err e)
  | Ok _ =>
      let bs := get_shape bias in
      if (1 <? di bs) || (1 <? dj bs) || (1 <? dk bs) then
        Done (r, Err "bias should be a 1x1x1 tensor")
      else
        bias_value <- get_item bm bias (mkIndex 0 0 0) ;;
        r' <- for_ 0 (dj (get_shape r)) (fun j =>
                for_ 0 (di (get_shape r)) (fun i r =>
                  v <- conv_window image kernel stride i j ;;
                  id <- get_data_index bm r (mkIndex i j channel) ;;
                  data_set r id (fadd v bias_value))) r ;;
        Done (r', Ok tt)
  end.

(** convolution.rs:110-179 [convolution_bias_relu]. *)
Definition convolution_bias_relu (image kernel bias : T) (stride : N) (r : T) (channel : N)
  : res (T * result unit) :=
  chk <- check_convolution_dimensions (get_shape image) (get_shape kernel) stride (get_shape r) channel ;;
  match chk with
  | Err e => Done (r, Err e)
  | Ok _ =>
      let bs := get_shape bias in
      if (1 <? di bs) || (1 <? dj bs) || (1 <? dk bs) then
        Done (r, Err "bias should be a 1x1x1 tensor")
      else
        bias_value <- get_item bm bias (mkIndex 0 0 0) ;;
        r' <- for_ 0 (dj (get_shape r)) (fun j =>
                for_ 0 (di (get_shape r)) (fun i r =>
                  v <- conv_window image kernel stride i j ;;
                  id <- get_data_index bm r (mkIndex i j channel) ;;
                  data_set r id (fmax (fadd v bias_value) fzero))) r ;;
        Done (r', Ok tt)
  end.

(** convolution.rs:218-222 (and 223-226 for j): the range of output positions visited for input
    coordinate [a] with kernel extent [kd]. *)
Definition backprop_range (a kd stride : N) : res (N * N) :=
  d <- i32_sub bm (u32_as_i32 a) (u32_as_i32 kd) ;;
  q <- i32_div d (u32_as_i32 stride) ;;
  s <- i32_add bm q 1 ;;
  let start := i32_as_u32 (Z.max s 0) in
  q' <- u32_div a stride ;;
  stop <- u32_add bm q' 1 ;;
  Done (start, N.min stop kd).

(** convolution.rs:181-250 [convolution_backprop_outgoing_gradient]. *)
Definition convolution_backprop_outgoing_gradient
    (incoming : T) (kernels : list T) (stride : N) (outgoing : T) : res (T * result unit) :=
  '(_, chk) <- tryM (combine (Nrange 0 (len kernels)) kernels)
        (fun '(i, kernel) _ =>
           c <- check_convolution_dimensions (get_shape outgoing) (get_shape kernel) stride
                  (get_shape incoming) (as_u32 i) ;;
           Done (tt, c)) tt ;;
  match chk with
  | Err e => Done (outgoing, Err e)
  | Ok _ =>
      let ishape := get_shape incoming in
      if negb (as_u32 (len kernels) =? dk ishape) then
        Done (outgoing, Err "Number of kernels does not match output dimension dk")
      else
        r <- for_kji (get_shape outgoing) (fun a b c outgoing =>
               v <- for_ 0 (dk ishape) (fun k acc =>
                      kernel <- vget kernels k ;;
                      let ks := get_shape kernel in
                      '(i_start, i_stop) <- backprop_range a (di ks) stride ;;
                      '(j_start, j_stop) <- backprop_range b (dj ks) stride ;;
                      for_ j_start j_stop (fun j =>
                        for_ i_start i_stop (fun i acc =>
                          gid <- get_data_index bm incoming (mkIndex i j k) ;;
                          oi <- u32_mul bm stride i ;;
                          xi <- u32_sub bm a oi ;;
                          oj <- u32_mul bm stride j ;;
                          xj <- u32_sub bm b oj ;;
                          kid <- get_data_index bm kernel (mkIndex xi xj c) ;;
                          kv <- data_get kernel kid ;;
                          g <- data_get incoming gid ;;
                          Done (fadd acc (fmul kv g)))) acc) fzero ;;
               id <- get_data_index bm outgoing (mkIndex a b c) ;;
               data_set outgoing id v) outgoing ;;
        Done (r, Ok tt)
  end.

(** convolution.rs:252-304 [convolution_backprop_kernel]. *)
Definition convolution_backprop_kernel
    (incoming image : T) (stride kernel_channel : N) (kernel_gradient : T) : res (T * result unit) :=
  chk <- check_convolution_dimensions (get_shape image) (get_shape kernel_gradient) stride
           (get_shape incoming) kernel_channel ;;
  match chk with
  | Err e => Done (kernel_gradient, Err e)
  | Ok _ =>
      r <- for_kji (get_shape kernel_gradient) (fun l m n kg =>
             v <- for_kji (get_shape incoming) (fun i j k acc =>
                    gid <- get_data_index bm incoming (mkIndex i j k) ;;
                    oi <- u32_mul bm i stride ;;
                    xi <- u32_add bm l oi ;;
                    oj <- u32_mul bm j stride ;;
                    xj <- u32_add bm m oj ;;
                    iid <- get_data_index bm image (mkIndex xi xj n) ;;
                    a <- data_get image iid ;;
                    g <- data_get incoming gid ;;
                    Done (fadd acc (fmul a g))) fzero ;;
             id <- get_data_index bm kg (mkIndex l m n) ;;
             data_set kg id v) kernel_gradient ;;
      Done (r, Ok tt)
  end.

End WithBuild.
