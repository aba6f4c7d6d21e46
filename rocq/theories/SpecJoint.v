(** * Vocabulary for C88: the parameters of all layers moving at once *)
From Coq Require Import Reals.
From Verif Require Import Base Arith Helper Tensor Network Spec SpecLayer SpecReal RealArith.
Local Open Scope R_scope.

(** The velocities of a layer's weights and biases. *)
Definition velocity : Type := (N -> N -> N -> R) * (N -> N -> N -> R).

Definition is_fc {F} (p : params F) : bool := match p with PFC _ _ => true | _ => false end.

(** At time [t] the layer with parameters [p] has the parameters [P t]. The weights and biases of a fully connected layer move along
    differentiable curves with velocities [v] at time 0; other layers stay as they are. *)
Inductive moves (low : R) (bm : build) : params R -> (R -> params R) * velocity -> Prop :=
| MoveFC weights bias m n w b W B wv bv P :
    let AR := R_arith low in
    holds bm weights (mkShape m n 1) w -> holds bm bias (mkShape m 1 1) b ->
    curve (mkShape m n 1) W w wv -> curve (mkShape m 1 1) B b bv ->
    (forall t, exists Wt Bt, P t = PFC Wt Bt /\ holds bm Wt (mkShape m n 1) (W t) /\ holds bm Bt (mkShape m 1 1) (B t)) ->
    moves low bm (PFC weights bias) (P, (wv, bv))
| MoveNot p P v : is_fc p = false -> (forall t, P t = p) -> moves low bm p (P, v).

(** The sum, over all fully connected layers, of the pairings of the accumulated gradients with the velocities. *)
Inductive slope_sum (low : R) (bm : build) : list (layer R) -> list velocity -> R -> Prop :=
| slope_none : slope_sum low bm [] [] 0
| slope_fc f ls wv bv vs m n wg bg r :
    let AR := R_arith low in
    holds bm (fc_weights_gradients f) (mkShape m n 1) wg -> holds bm (fc_bias_gradients f) (mkShape m 1 1) bg ->
    slope_sum low bm ls vs r ->
    slope_sum low bm (LFC f :: ls) ((wv, bv) :: vs) (pairing (mkShape m n 1) wg wv + pairing (mkShape m 1 1) bg bv + r)
| slope_other l ls v vs r : is_fc (params_of l) = false -> slope_sum low bm ls vs r -> slope_sum low bm (l :: ls) (v :: vs) r.

(** A gradient descent step of length [eta] on every layer at once, from the layers [ls] with their accumulated gradients to [ls']. *)
Inductive stepped (low : R) (bm : build) (eta : R) : list (layer R) -> list (layer R) -> Prop :=
| step_none : stepped low bm eta [] []
| step_fc f f' ls ls' m n w b dw db :
    let AR := R_arith low in
    holds bm (fc_weights f) (mkShape m n 1) w -> holds bm (fc_bias f) (mkShape m 1 1) b ->
    holds bm (fc_weights_gradients f) (mkShape m n 1) dw -> holds bm (fc_bias_gradients f) (mkShape m 1 1) db ->
    holds bm (fc_weights f') (mkShape m n 1) (fun i j k => w i j k - eta * dw i j k) ->
    holds bm (fc_bias f') (mkShape m 1 1) (fun i j k => b i j k - eta * db i j k) ->
    stepped low bm eta ls ls' -> stepped low bm eta (LFC f :: ls) (LFC f' :: ls')
| step_other l l' ls ls' : is_fc (params_of l) = false -> params_of l' = params_of l ->
    stepped low bm eta ls ls' -> stepped low bm eta (l :: ls) (l' :: ls').

(** Some accumulated gradient is not zero. *)
Definition some_gradient (low : R) (bm : build) (ls : list (layer R)) : Prop :=
  let AR := R_arith low in
  exists i f m n wg bg, nth_error ls i = Some (LFC f) /\ holds bm (fc_weights_gradients f) (mkShape m n 1) wg /\ holds bm (fc_bias_gradients f) (mkShape m 1 1) bg
    /\ ((exists a b c, in_shape (mkShape m n 1) a b c /\ wg a b c <> 0) \/ exists a b c, in_shape (mkShape m 1 1) a b c /\ bg a b c <> 0).
