(** * Vocabulary for C65: a whole network in f32 against the same network in exact arithmetic *)
From Coq Require Import Reals.
From Verif Require Import Base Arith Helper Tensor Network Float32 Spec SpecLayer SpecReal SpecError RealArith.
Local Open Scope R_scope.

(** The same parameters as real numbers; every f32 is finite. *)
Definition exact_tensor (t : tensor f32) (t' : tensor R) : Prop :=
  tshape t' = tshape t /\ strides t' = strides t /\ data t' = map real (data t) /\ Forall (fun x => fin x = true) (data t).

Definition exact_params (p : params f32) (p' : params R) : Prop :=
  match p, p' with
  | PFC w b, PFC w' b' => exact_tensor w w' /\ exact_tensor b b'
  | PConv k b s i o, PConv k' b' s' i' o' => Forall2 exact_tensor k k' /\ Forall2 exact_tensor b b' /\ s' = s /\ i' = i /\ o' = o
  | PMaxPool i m o s, PMaxPool i' m' o' s' => i' = i /\ m' = m /\ o' = o /\ s' = s
  | PSoftmax s, PSoftmax s' => s' = s
  | _, _ => False
  end.

(** Every element of an f32 tensor is finite and within [d] of the real one, which is at most [a] in absolute value. *)
Definition near (a d : R) (s : shape) (x : N -> N -> N -> f32) (y : N -> N -> N -> R) : Prop :=
  forall i j k, in_shape s i j k -> fin (x i j k) = true /\ Rabs (real (x i j k) - y i j k) <= d /\ Rabs (y i j k) <= a.

(** A sum of [n] products, whose absolute values add up to at most [a], and a bias of at most [b] does not overflow. *)
Definition fits_f32 (n : nat) (a b : R) : Prop := (1 + u) ^ (n + 1) * (a + b + INR n * eta) <= 2 ^ 127.

(** [exp] has a relative error of at most [eps] on [-l, l]. *)
Definition exp_accurate (e : env) (l eps : R) : Prop :=
  forall x, fin x = true -> Rabs (real x) <= l ->
    fin (env_exp e x) = true /\ Rabs (real (env_exp e x) - exp (real x)) <= eps * exp (real x).

(** The factor by which softmax of [n] values can be off, when the values are known up to [d]. *)
Definition softmax_factor (n : nat) (d eps : R) : R :=
  exp (2 * d) * (1 + eps) * (1 + u) / ((1 - eps) * (1 - u) ^ n).

(** [layer_bounds e low bm p a d a' d']: inputs of at most [a], known up to [d], become outputs of at most [a'], known up to [d'].
    [w] bounds the sum of the absolute weights behind an output, [b] the biases. *)
Inductive layer_bounds (e : env) (low : R) (bm : build) : params R -> R -> R -> R -> R -> Prop :=
| BFC weights bias m n wv bv w b a d :
    let AR := R_arith low in
    holds bm weights (mkShape m n 1) wv -> holds bm bias (mkShape m 1 1) bv ->
    (forall i, (i < m)%N -> Rsum (map (fun p => Rabs (wv i p 0%N)) (upto n)) <= w) ->
    (forall i, (i < m)%N -> Rabs (bv i 0%N 0%N) <= b) ->
    0 <= w -> 0 <= b -> fits_f32 (N.to_nat n) (w * (a + d)) b ->
    layer_bounds e low bm (PFC weights bias) a d (w * a + b) (w * d + bound_biased (N.to_nat n) (w * (a + d)) b)
| BConv kernels biases stride ins outs ks h bv w b a d :
    let AR := R_arith low in
    all_hold bm kernels ks h ->
    (forall n t, nth_error biases (N.to_nat n) = Some t -> get_item bm t (mkIndex 0 0 0) = Done (bv n)) ->
    (forall k, (k < dk outs)%N -> Rsum (map (fun '(i, j, c) => Rabs (h k i j c)) (cells ks)) <= w) ->
    (forall k, (k < dk outs)%N -> Rabs (bv k) <= b) ->
    0 <= w -> 0 <= b -> fits_f32 (N.to_nat (di ks * dj ks * dk ks)) (w * (a + d)) b ->
    layer_bounds e low bm (PConv kernels biases stride ins outs) a d (w * a + b)
      (w * d + bound_biased (N.to_nat (di ks * dj ks * dk ks)) (w * (a + d)) b)
| BMaxPool ins mask outs stride a d :
    (0 < di mask)%N -> (0 < dj mask)%N -> low <= - a ->
    layer_bounds e low bm (PMaxPool ins mask outs stride) a d a d
| BSoftmax s a d eps :
    let n := N.to_nat (di s * dj s * dk s) in
    0 <= eps < 1 -> exp_accurate e (a + d) eps -> INR n * (exp (a + d) * (1 + eps)) * (1 + u) ^ n <= 2 ^ 127 ->
    layer_bounds e low bm (PSoftmax s) a d 1 (softmax_factor n d eps - 1 + eta).

Inductive net_bounds (e : env) (low : R) (bm : build) : list (params R) -> R -> R -> R -> R -> Prop :=
| bounds_none a d : net_bounds e low bm [] a d a d
| bounds_layer p ps a d a1 d1 a2 d2 :
    layer_bounds e low bm p a d a1 d1 -> net_bounds e low bm ps a1 d1 a2 d2 -> net_bounds e low bm (p :: ps) a d a2 d2.
