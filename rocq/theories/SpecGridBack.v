(** * Vocabulary for C86: training on a binary grid *)
From Coq Require Import Reals ZArith.
From Verif Require Import Base Arith Helper Tensor Network Float32 Spec SpecLayer SpecReal SpecError RealArith SpecModes SpecGrid.
Local Open Scope R_scope.

(** What is known about the numbers between two layers: the values are multiples of 2^[fg] of at most [fa], the gradients of the loss with
    respect to them are multiples of 2^[bg] of at most [ba]. *)
Record level := mkLevel { fg : Z; fa : R; bg : Z; ba : R }.

(** At most [q] pooling windows contain a given input. *)
Definition overlap (ins mask outs : shape) (stride : N) (q : nat) : Prop :=
  forall a b c, in_shape ins a b c ->
    (length (filter (fun '(i, j, k) => (i * stride <=? a) && (a <? i * stride + di mask) && (j * stride <=? b) && (b <? j * stride + dj mask) && (k =? c))%N
              (cells outs)) <= q)%nat.

(** [layer_training low bm K p u v]: a layer between the levels [u] and [v] whose passes, and whose gradients over at most [K] samples,
    fit on their grids. [s] bounds the sum of the absolute weights that leave an input. *)
Inductive layer_training (low : R) (bm : build) (K : R) : params R -> level -> level -> Prop :=
| TrainFC weights bias m n wv h s u v :
    let AR := R_arith low in
    layer_grid low bm (PFC weights bias) (fg u) (fa u) (fg v) (fa v) ->
    holds bm weights (mkShape m n 1) wv -> (forall i p, (i < m)%N -> (p < n)%N -> on_grid h (wv i p 0%N)) ->
    (forall p, (p < n)%N -> Rsum (map (fun i => Rabs (wv i p 0%N)) (upto m)) <= s) -> 0 <= s ->
    bg u = (h + bg v)%Z -> ba u = s * ba v -> fits_grid (bg u) (ba u) ->
    fits_grid (bg v) (K * ba v) -> fits_grid (bg v + fg u) (K * (ba v * fa u)) ->
    layer_training low bm K (PFC weights bias) u v
| TrainMaxPool ins mask outs stride q u v :
    layer_grid low bm (PMaxPool ins mask outs stride) (fg u) (fa u) (fg v) (fa v) -> low < - fa u ->
    overlap ins mask outs stride q -> (0 < di ins * dj ins * dk ins)%N ->
    bg u = bg v -> ba u = INR q * ba v -> fits_grid (bg u) (ba u) ->
    layer_training low bm K (PMaxPool ins mask outs stride) u v.

(** The levels [u :: us] around the layers [ps]. *)
Fixpoint net_training (low : R) (bm : build) (K : R) (ps : list (params R)) (u : level) (us : list level) : Prop :=
  match ps, us with
  | [], [] => True
  | p :: ps', v :: us' => layer_training low bm K p u v /\ net_training low bm K ps' v us'
  | _, _ => False
  end.

(** Finite f32 values that are exactly these real numbers. *)
Definition equal_reals (s : shape) (x : N -> N -> N -> f32) (y : N -> N -> N -> R) : Prop :=
  forall i j k, in_shape s i j k -> fin (x i j k) = true /\ real (x i j k) = y i j k.

(** An f32 sample and the same sample as real numbers: an input on the grid of the level [u] and a gradient on that of the level [v]. *)
Definition sample_grid (e : env) (low : R) (bm : build) (ins outs : shape) (u v : level) (s : tensor f32 * tensor f32) (s' : tensor R * tensor R) : Prop :=
  exists x x' g g',
    @holds f32 (f32_arith e) bm (fst s) ins x /\ @holds R (R_arith low) bm (fst s') ins x' /\ exact_on (fg u) (fa u) ins x x'
    /\ @holds f32 (f32_arith e) bm (snd s) outs g /\ @holds R (R_arith low) bm (snd s') outs g' /\ exact_on (bg v) (ba v) outs g g'.

(** The weight and bias gradients of every fully connected layer are zero. *)
Definition no_gradients {F} {AR : Arith F} (bm : build) (n : network F) : Prop :=
  forall i f, nth_error (layers n) i = Some (LFC f) ->
    zeros bm (fc_weights_gradients f) (tshape (fc_weights f)) /\ zeros bm (fc_bias_gradients f) (tshape (fc_bias f)).
