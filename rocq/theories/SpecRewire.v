(** * Vocabulary for C96: renumbering and rescaling hidden units and channels *)
From Coq Require Import Reals.
From Verif Require Import Base Arith Helper Tensor Network Spec SpecLayer RealArith.
Local Open Scope R_scope.

(** [s] renumbers the numbers below [h]. *)
Definition renumbering (h : N) (s : N -> N) : Prop :=
  (forall u, (u < h)%N -> (s u < h)%N) /\ (forall u v, (u < h)%N -> (v < h)%N -> s u = s v -> u = v).

Definition pools (p : params R) : Prop := match p with PMaxPool _ mask _ _ => (0 < di mask)%N /\ (0 < dj mask)%N | _ => False end.

(** New unit [u] is old unit [s u]; what it puts out is multiplied by [c u], and whatever reads it divides by [c u]. *)
Inductive rewired (low : R) (bm : build) : list (params R) -> list (params R) -> Prop :=
| RDense W1 B1 W2 B2 W1' B1' W2' n h m w1 b1 w2 w1' b1' w2' s c :
    let AR := R_arith low in
    renumbering h s -> (forall u, (u < h)%N -> 0 < c u) ->
    holds bm W1 (mkShape h n 1) w1 -> holds bm B1 (mkShape h 1 1) b1 -> holds bm W2 (mkShape m h 1) w2 ->
    holds bm W1' (mkShape h n 1) w1' -> holds bm B1' (mkShape h 1 1) b1' -> holds bm W2' (mkShape m h 1) w2' ->
    (forall u p, (u < h)%N -> (p < n)%N -> w1' u p 0%N = c u * w1 (s u) p 0%N) ->
    (forall u, (u < h)%N -> b1' u 0%N 0%N = c u * b1 (s u) 0%N 0%N) ->
    (forall i u, (i < m)%N -> (u < h)%N -> w2' i u 0%N = w2 i (s u) 0%N / c u) ->
    rewired low bm [PFC W1 B1; PFC W2 B2] [PFC W1' B1'; PFC W2' B2]
| RConv K1 B1 st1 in1 out1 mid K2 B2 st2 in2 out2 K1' B1' K2' ks1 ks2 h1 h1' bv bv' h2 h2' s c :
    let AR := R_arith low in
    renumbering (dk out1) s -> (forall u, (u < dk out1)%N -> 0 < c u) ->
    Forall pools mid -> (mid = [] \/ low <= 0) ->
    all_hold bm K1 ks1 h1 -> all_hold bm K1' ks1 h1' -> all_hold bm K2 ks2 h2 -> all_hold bm K2' ks2 h2' ->
    (forall u b, nth_error B1 (N.to_nat u) = Some b -> get_item bm b (mkIndex 0 0 0) = Done (bv u)) ->
    (forall u b, nth_error B1' (N.to_nat u) = Some b -> get_item bm b (mkIndex 0 0 0) = Done (bv' u)) ->
    (forall u i j l, (u < dk out1)%N -> in_shape ks1 i j l -> h1' u i j l = c u * h1 (s u) i j l) ->
    (forall u, (u < dk out1)%N -> bv' u = c u * bv (s u)) ->
    (forall k i j u, (k < dk out2)%N -> in_shape ks2 i j u -> h2' k i j u = h2 k i j (s u) / c u) ->
    rewired low bm (PConv K1 B1 st1 in1 out1 :: mid ++ [PConv K2 B2 st2 in2 out2])
      (PConv K1' B1' st1 in1 out1 :: mid ++ [PConv K2' B2 st2 in2 out2]).

(** Unit (channel) [u] of the second layer is unit (channel) [s u] of the first. *)
Inductive picked {F} {AR : Arith F} (bm : build) (s : N -> N) : params F -> params F -> Prop :=
| PickDense W B W' B' m m' n w b w' b' :
    (forall u, (u < m')%N -> (s u < m)%N) ->
    holds bm W (mkShape m n 1) w -> holds bm B (mkShape m 1 1) b -> holds bm W' (mkShape m' n 1) w' -> holds bm B' (mkShape m' 1 1) b' ->
    (forall u p, (u < m')%N -> (p < n)%N -> w' u p 0%N = w (s u) p 0%N) -> (forall u, (u < m')%N -> b' u 0%N 0%N = b (s u) 0%N 0%N) ->
    picked bm s (PFC W B) (PFC W' B')
| PickConv K B st ins outs K' B' outs' ks h h' bv bv' :
    (forall u, (u < dk outs')%N -> (s u < dk outs)%N) -> di outs' = di outs -> dj outs' = dj outs ->
    all_hold bm K ks h -> all_hold bm K' ks h' ->
    (forall u b, nth_error B (N.to_nat u) = Some b -> get_item bm b (mkIndex 0 0 0) = Done (bv u)) ->
    (forall u b, nth_error B' (N.to_nat u) = Some b -> get_item bm b (mkIndex 0 0 0) = Done (bv' u)) ->
    (forall u i j l, (u < dk outs')%N -> in_shape ks i j l -> h' u i j l = h (s u) i j l) -> (forall u, (u < dk outs')%N -> bv' u = bv (s u)) ->
    picked bm s (PConv K B st ins outs) (PConv K' B' st ins outs').
