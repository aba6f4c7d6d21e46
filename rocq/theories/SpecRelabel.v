(** * Vocabulary for C104: training after renumbering and rescaling units *)
From Coq Require Import Reals.
From Verif Require Import Base Arith Helper Tensor Network Bincode Serial Spec SpecLayer SpecNet SpecOpposed SpecRewire RealArith.
Local Open Scope R_scope.

(** How a second network looks at a layer boundary of the first: at the same numbers, or with unit [u] being old unit [s u], multiplied by [c u]. *)
Inductive view := Plain | Relabel (h : N) (s : N -> N) (c : N -> R).

Definition old (v : view) (u : N) : N := match v with Plain => u | Relabel _ s _ => s u end.
Definition factor (v : view) (u : N) : R := match v with Plain => 1 | Relabel _ _ c => c u end.
Definition view_ok (v : view) : Prop := match v with Plain => True | Relabel h s c => renumbering h s /\ forall u, (u < h)%N -> 0 < c u end.
Definition view_fits (v : view) (s : shape) : Prop := match v with Plain => True | Relabel h _ _ => s = mkShape h 1 1 end.

Section Seen.
Context (low : R) (bm : build) {BT : Bits R}.
#[local] Hint Extern 0 (Arith R) => exact (R_arith low) : typeclass_instances.
Notation T := (tensor R).

Definition values_seen (v : view) (t t' : T) : Prop := exists s x x', view_fits v s /\ holds bm t s x /\ holds bm t' s x'
  /\ forall i j k, in_shape s i j k -> x' i j k = factor v i * x (old v i) j k.

(** Gradients are divided where values are multiplied. *)
Definition gradients_seen (v : view) (t t' : T) : Prop := exists s x x', view_fits v s /\ holds bm t s x /\ holds bm t' s x'
  /\ forall i j k, in_shape s i j k -> x' i j k = x (old v i) j k / factor v i.

(** The same layer between a boundary seen through [v] and one seen through [w], with its accumulated gradients. *)
Inductive layer_seen (v w : view) : layer R -> layer R -> Prop :=
| seen_fc f f' m n a b a' b' da db da' db' :
    view_fits v (mkShape n 1 1) -> view_fits w (mkShape m 1 1) ->
    holds bm (fc_weights f) (mkShape m n 1) a -> holds bm (fc_weights f') (mkShape m n 1) a' ->
    holds bm (fc_bias f) (mkShape m 1 1) b -> holds bm (fc_bias f') (mkShape m 1 1) b' ->
    holds bm (fc_weights_gradients f) (mkShape m n 1) da -> holds bm (fc_weights_gradients f') (mkShape m n 1) da' ->
    holds bm (fc_bias_gradients f) (mkShape m 1 1) db -> holds bm (fc_bias_gradients f') (mkShape m 1 1) db' ->
    (forall i p, (i < m)%N -> (p < n)%N -> a' i p 0%N = factor w i * a (old w i) (old v p) 0%N / factor v p) ->
    (forall i, (i < m)%N -> b' i 0%N 0%N = factor w i * b (old w i) 0%N 0%N) ->
    (forall i p, (i < m)%N -> (p < n)%N -> da' i p 0%N = factor v p * da (old w i) (old v p) 0%N / factor w i) ->
    (forall i, (i < m)%N -> db' i 0%N 0%N = db (old w i) 0%N 0%N / factor w i) ->
    layer_seen v w (LFC f) (LFC f')
| seen_same l l' : v = Plain -> w = Plain -> layer_related eq bm l l' -> layer_seen v w l l'.

(** [vs i] is the view of the boundary in front of layer [i]. *)
Definition layers_seen (vs : nat -> view) (ls ls' : list (layer R)) : Prop :=
  length ls' = length ls /\ forall i l l', nth_error ls i = Some l -> nth_error ls' i = Some l' -> layer_seen (vs i) (vs (S i)) l l'.

Definition tensors_seen (P : view -> T -> T -> Prop) (vs : nat -> view) (ts ts' : list T) : Prop :=
  length ts' = length ts /\ forall i t t', nth_error ts i = Some t -> nth_error ts' i = Some t' -> P (vs i) t t'.

(** Samples for the two networks, of [d] layers each. *)
Definition samples_seen (vs : nat -> view) (d : nat) (samples samples' : list (T * T)) : Prop :=
  Forall2 (fun a a' => values_seen (vs 0%nat) (fst a) (fst a') /\ gradients_seen (vs d) (snd a) (snd a')) samples samples'.

Definition trainable (n : network R) : Prop := layers n <> [] /\ Forall stays_inside (layers n) /\ Forall backs (layers n).
Definition sized (n : network R) (samples : list (T * T)) : Prop :=
  Forall (fun a => shaped (fst a) (net_input_shape n) /\ shaped (snd a) (net_output_shape n)) samples.

(** A gradient descent step of length [eta] on the fully connected layers, which also clears their gradients. *)
Inductive layer_stepped (eta : R) : layer R -> layer R -> Prop :=
| stepped_fc f f' m n a b da db :
    holds bm (fc_weights f) (mkShape m n 1) a -> holds bm (fc_bias f) (mkShape m 1 1) b ->
    holds bm (fc_weights_gradients f) (mkShape m n 1) da -> holds bm (fc_bias_gradients f) (mkShape m 1 1) db ->
    holds bm (fc_weights f') (mkShape m n 1) (fun i j k => a i j k - eta * da i j k) ->
    holds bm (fc_bias f') (mkShape m 1 1) (fun i j k => b i j k - eta * db i j k) ->
    holds bm (fc_weights_gradients f') (mkShape m n 1) (fun _ _ _ => 0) -> holds bm (fc_bias_gradients f') (mkShape m 1 1) (fun _ _ _ => 0) ->
    layer_stepped eta (LFC f) (LFC f')
| stepped_other l : (forall f, l <> LFC f) -> layer_stepped eta l l.

(** Training: batch after batch, with a step of its own length after each. *)
Inductive epochs : network R -> list (R * list (T * T)) -> network R -> Prop :=
| epochs_end n : epochs n [] n
| epochs_batch n eta samples rest m q r : session bm n samples m -> training_built bm q ->
    Forall2 (layer_stepped eta) (layers m) (layers q) -> epochs q rest r -> epochs n ((eta, samples) :: rest) r.

End Seen.
