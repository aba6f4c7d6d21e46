(** * Vocabulary for C81: numbers on a binary grid *)
From Coq Require Import Reals ZArith.
From Verif Require Import Base Arith Helper Tensor Network Float32 Spec SpecLayer SpecReal SpecError RealArith.
Local Open Scope R_scope.

(** Multiples of 2^g: integers for g = 0, fixed-point numbers with -g fractional bits for negative g. *)
Definition on_grid (g : Z) (x : R) : Prop := exists z : Z, x = IZR z * powerRZ 2 g.

(** Multiples of 2^g of at most [a] have 24 significant bits. *)
Definition fits_grid (g : Z) (a : R) : Prop := (-149 <= g <= 103)%Z /\ a <= 2 ^ 24 * powerRZ 2 g.

(** An f32 tensor that stands for exactly these real numbers, which are on the grid and at most [a] in absolute value. *)
Definition exact_on (g : Z) (a : R) (s : shape) (x : N -> N -> N -> f32) (y : N -> N -> N -> R) : Prop :=
  forall i j k, in_shape s i j k -> fin (x i j k) = true /\ real (x i j k) = y i j k /\ on_grid g (y i j k) /\ Rabs (y i j k) <= a.

(** [layer_grid low bm p g a g' a']: inputs on the grid [g] of at most [a] become outputs on the grid [g'] of at most [a']. [w] bounds the
    sum of the absolute weights behind an output, [b] the biases. *)
Inductive layer_grid (low : R) (bm : build) : params R -> Z -> R -> Z -> R -> Prop :=
| GridFC weights bias m n wv bv w b g h a :
    let AR := R_arith low in
    holds bm weights (mkShape m n 1) wv -> holds bm bias (mkShape m 1 1) bv ->
    (forall i p, (i < m)%N -> (p < n)%N -> on_grid h (wv i p 0%N)) -> (forall i, (i < m)%N -> on_grid (h + g) (bv i 0%N 0%N)) ->
    (forall i, (i < m)%N -> Rsum (map (fun p => Rabs (wv i p 0%N)) (upto n)) <= w) -> (forall i, (i < m)%N -> Rabs (bv i 0%N 0%N) <= b) ->
    0 <= w -> 0 <= b -> fits_grid (h + g) (w * a + b) -> layer_grid low bm (PFC weights bias) g a (h + g) (w * a + b)
| GridConv kernels biases stride ins outs ks kv bv w b g h a :
    let AR := R_arith low in
    all_hold bm kernels ks kv ->
    (forall n t, nth_error biases (N.to_nat n) = Some t -> get_item bm t (mkIndex 0 0 0) = Done (bv n)) ->
    (forall k i j c, (k < dk outs)%N -> in_shape ks i j c -> on_grid h (kv k i j c)) -> (forall k, (k < dk outs)%N -> on_grid (h + g) (bv k)) ->
    (forall k, (k < dk outs)%N -> Rsum (map (fun '(i, j, c) => Rabs (kv k i j c)) (cells ks)) <= w) -> (forall k, (k < dk outs)%N -> Rabs (bv k) <= b) ->
    0 <= w -> 0 <= b -> fits_grid (h + g) (w * a + b) -> layer_grid low bm (PConv kernels biases stride ins outs) g a (h + g) (w * a + b)
| GridMaxPool ins mask outs stride g a :
    (0 < di mask)%N -> (0 < dj mask)%N -> low <= - a -> layer_grid low bm (PMaxPool ins mask outs stride) g a g a.

Inductive net_grid (low : R) (bm : build) : list (params R) -> Z -> R -> Z -> R -> Prop :=
| grid_none g a : net_grid low bm [] g a g a
| grid_layer p ps g a g1 a1 g2 a2 : layer_grid low bm p g a g1 a1 -> net_grid low bm ps g1 a1 g2 a2 -> net_grid low bm (p :: ps) g a g2 a2.
