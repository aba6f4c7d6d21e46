(** * Model of src/tensor/helper.rs *)
From Verif Require Import Base.

(** helper.rs:5-10 [struct TensorShape]. *)
Record shape := mkShape { di : N; dj : N; dk : N }.

(** helper.rs:5 [derive(PartialEq)] on TensorShape. *)
Definition shape_eqb (a b : shape) : bool :=
  (di a =? di b) && (dj a =? dj b) && (dk a =? dk b).

(** helper.rs:13-19 [TensorShape::new]. *)
Definition shape_new (i j k : N) : shape :=
  mkShape (N.max i 1) (N.max j 1) (N.max k 1).

(** helper.rs:22-28 [TensorShape::new_1d]. *)
Definition shape_1d (i : N) : shape := mkShape i 1 1.

(** helper.rs:31-37 [TensorShape::new_2d]. *)
Definition shape_2d (i j : N) : shape := mkShape i j 1.

(** helper.rs:72-76 [struct TensorIndex]. *)
Record index := mkIndex { ix : N; jx : N; kx : N }.

(** helper.rs:79-81 [TensorIndex::index_1d]. *)
Definition index_1d (i : N) : index := mkIndex i 0 0.
(** helper.rs:83-85 [TensorIndex::index_2d]. *)
Definition index_2d (i j : N) : index := mkIndex i j 0.
(** helper.rs:88-90 [TensorIndex::zero]. *)
Definition index_zero : index := mkIndex 0 0 0.

(** helper.rs:93-98 [struct TensorStride]. *)
Record stride3 := mkStride { si : N; sj : N; sk : N }.

Section WithBuild.
Context (bm : build).

(** helper.rs:40-42 [TensorShape::total_size]. *)
Definition total_size (s : shape) : res N :=
  ij <- u32_mul bm (di s) (dj s) ;;
  u32_mul bm ij (dk s).

(** helper.rs:44-56 [TensorShape::fits_index]. *)
Definition fits_index (s : shape) (x : index) : bool :=
  if di s <=? ix x then false
  else if dj s <=? jx x then false
  else if dk s <=? kx x then false
  else true.

(** helper.rs:58-60 [TensorShape::get]. *)
Definition shape_get (s : shape) : N * N * N := (di s, dj s, dk s).

(** helper.rs:62-68 [TensorShape::transpose_ij]. *)
Definition shape_transpose_ij (s : shape) : shape := mkShape (dj s) (di s) (dk s).

(** helper.rs:101-106 [impl Mul<&TensorIndex> for &TensorStride]. *)
Definition stride_mul (s : stride3) (x : index) : res N :=
  a <- u32_mul bm (si s) (ix x) ;;
  b <- u32_mul bm (sj s) (jx x) ;;
  ab <- u32_add bm a b ;;
  c <- u32_mul bm (sk s) (kx x) ;;
  u32_add bm ab c.

(** helper.rs:109-115 [TensorStride::new_from_shape]. *)
Definition stride_of_shape (s : shape) : res stride3 :=
  k <- u32_mul bm (di s) (dj s) ;;
  Done (mkStride 1 (di s) k).

End WithBuild.
