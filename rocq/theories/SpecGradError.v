(** * Vocabulary for C87: f32 gradients against exact ones *)
From Coq Require Import Reals.
From Verif Require Import Base Arith Helper Tensor Network Float32 Spec SpecLayer SpecNet SpecReal SpecError SpecNetError SpecGridBack RealArith.
Local Open Scope R_scope.

(** What is known about the numbers between two layers: the exact values are at most [xa], the f32 values are within [xd] of them; the
    exact gradients of the loss with respect to them are at most [ga], the f32 gradients are within [gd] of those. *)
Record span := mkSpan { xa : R; xd : R; ga : R; gd : R }.

(** A sum of [n] numbers whose absolute values add up to at most [a] does not overflow. *)
Definition sum_fits (n : nat) (a : R) : Prop := (1 + u) ^ n * (a + INR n * eta) <= 2 ^ 127.

(** The error of softmax's inner product of [n] outputs, known up to [d], with gradients. *)
Definition product_error (n : nat) (d ga gd : R) : R := INR n * ((1 + d) * gd + d * ga) + bound n (INR n * ((1 + d) * (ga + gd))).

(** [layer_slopes e low bm K p a b]: a layer between [a] and [b], for [K] samples. [s] bounds the sum of the absolute weights that leave
    an input, [q] the number of pooling windows that contain an input. *)
Inductive layer_slopes (e : env) (low : R) (bm : build) (K : nat) : params R -> span -> span -> Prop :=
| SlopeFC weights bias m n wv s a b :
    let AR := R_arith low in
    layer_bounds e low bm (PFC weights bias) (xa a) (xd a) (xa b) (xd b) ->
    holds bm weights (mkShape m n 1) wv -> (forall p, (p < n)%N -> Rsum (map (fun i => Rabs (wv i p 0%N)) (upto m)) <= s) -> 0 <= s ->
    ga a = s * ga b -> gd a = s * gd b + bound (N.to_nat m) (s * (ga b + gd b)) -> sum_fits (N.to_nat m) (s * (ga b + gd b)) ->
    sum_fits K (INR K * (ga b + gd b)) -> sum_fits K (INR K * ((ga b + gd b) * (xa a + xd a))) ->
    layer_slopes e low bm K (PFC weights bias) a b
| SlopeMaxPool ins mask outs stride q a b :
    layer_bounds e low bm (PMaxPool ins mask outs stride) (xa a) (xd a) (xa b) (xd b) ->
    overlap ins mask outs stride q -> (0 < di ins * dj ins * dk ins)%N ->
    ga a = INR q * ga b -> gd a = INR q * gd b + bound q (INR q * (ga b + gd b)) -> sum_fits q (INR q * (ga b + gd b)) ->
    layer_slopes e low bm K (PMaxPool ins mask outs stride) a b
| SlopeSoftmax n a b :
    let d := xd b in let t := product_error (N.to_nat n) d (ga b) (gd b) in let m := 2 * ga b + gd b + t in
    layer_bounds e low bm (PSoftmax (mkShape n 1 1)) (xa a) (xd a) (xa b) (xd b) ->
    ga a = 2 * ga b -> gd a = d * m + gd b + t + bound 2 ((1 + d) * m) ->
    sum_fits (N.to_nat n) (INR (N.to_nat n) * ((1 + d) * (ga b + gd b))) -> sum_fits 2 ((1 + d) * m) ->
    layer_slopes e low bm K (PSoftmax (mkShape n 1 1)) a b.

(** The spans [a :: bs] around the layers [ps]. *)
Fixpoint net_slopes (e : env) (low : R) (bm : build) (K : nat) (ps : list (params R)) (a : span) (bs : list span) : Prop :=
  match ps, bs with
  | [], [] => True
  | p :: ps', b :: bs' => layer_slopes e low bm K p a b /\ net_slopes e low bm K ps' b bs'
  | _, _ => False
  end.

(** On the exact input [X] no kink is within the error of the values: every pre-activation is further from 0 than its error, and every
    pooling window has a maximum that exceeds the other values by more than twice theirs. *)
Definition layer_firm (low : R) (bm : build) (p : params R) (a b : span) (X : tensor R) : Prop :=
  let AR := R_arith low in
  match p with
  | PFC weights bias => forall m n w c x,
      holds bm weights (mkShape m n 1) w -> holds bm bias (mkShape m 1 1) c -> holds bm X (mkShape n 1 1) x ->
      forall i, (i < m)%N -> xd b < Rabs (fc_pre n w c x i)
  | PConv _ _ _ _ _ => False
  | PMaxPool ins mask outs stride => exists x win, holds bm X ins x /\ winners low mask stride outs x win
      /\ forall i j k c, in_shape outs i j k -> In c (window_positions (di mask) (dj mask) stride i j k) -> c <> win i j k ->
           value_at x c + 2 * xd a < value_at x (win i j k)
  | PSoftmax _ => True
  end.

Fixpoint firm (low : R) (bm : build) (ps : list (params R)) (a : span) (bs : list span) (X : tensor R) : Prop :=
  match ps, bs with
  | p :: ps', b :: bs' => layer_firm low bm p a b X /\ forall Z, @computes R (R_arith low) bm p X Z -> firm low bm ps' b bs' Z
  | _, _ => True
  end.

(** An f32 sample near an exact one: inputs as in [a], loss gradients as in [b]. *)
Definition sample_near (e : env) (low : R) (bm : build) (ins outs : shape) (a b : span) (s : tensor f32 * tensor f32) (s' : tensor R * tensor R) : Prop :=
  exists x x' g g',
    @holds f32 (f32_arith e) bm (fst s) ins x /\ @holds R (R_arith low) bm (fst s') ins x' /\ near (xa a) (xd a) ins x x'
    /\ @holds f32 (f32_arith e) bm (snd s) outs g /\ @holds R (R_arith low) bm (snd s') outs g' /\ near (ga b) (gd b) outs g g'.

(** The errors of the weight and bias gradients of a layer between [a] and [b] after [K] samples. *)
Definition weight_error (K : nat) (a b : span) : R :=
  INR K * ((ga b + gd b) * xd a + gd b * xa a) + bound K (INR K * ((ga b + gd b) * (xa a + xd a))).
Definition bias_error (K : nat) (b : span) : R := INR K * gd b + bound K (INR K * (ga b + gd b)).

(** Finite f32 values within [d] of these real numbers. *)
Definition within (d : R) (s : shape) (x : N -> N -> N -> f32) (y : N -> N -> N -> R) : Prop :=
  forall i j k, in_shape s i j k -> fin (x i j k) = true /\ Rabs (real (x i j k) - y i j k) <= d.
