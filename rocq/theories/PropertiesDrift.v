(** * C93: a small change of the parameters changes the output by little *)
From Coq Require Import Reals Lra.
From Verif Require Import Base Arith Helper Tensor Network Bincode Serial Float32 Spec SpecLayer SpecNet SpecReal SpecError SpecNetError SpecGain SpecDrift RealArith.
From Verif Require Import ProofsDrift Demo DemoNet DemoReal DemoGrad DemoNetError DemoGain DemoDrift.
Local Open Scope R_scope.

(** Exact arithmetic; two networks with different parameters, run on two inputs. *)
Theorem C93_exact : forall (BT : Bits R) low bm (n n' : network R) X X' x x' a d a1 d1,
  let AR := R_arith low in
  well_built bm n -> well_built bm n' -> layers n <> [] -> net_input_shape n' = net_input_shape n ->
  net_drift low bm (map params_of (layers n)) (map params_of (layers n')) a d a1 d1 ->
  holds bm X (net_input_shape n) x -> holds bm X' (net_input_shape n) x' ->
  0 <= a -> 0 <= d -> apart d (net_input_shape n) x x' -> within a (net_input_shape n) x' ->
  exists n1 n1' Y Y' s y y', infer bm n X = Done (n1, Ok tt) /\ get_output n1 = Done (Ok Y)
    /\ infer bm n' X' = Done (n1', Ok tt) /\ get_output n1' = Done (Ok Y')
    /\ holds bm Y s y /\ holds bm Y' s y' /\ apart d1 s y y' /\ within a1 s y'.
Proof. exact network_drift. Qed.
Print Assumptions C93_exact.

(** If no weight and no bias of a layer changes by more than [eps], [net_drift] holds with a term proportional to [eps] and the number
    of inputs of one unit. *)
Theorem C93_fully_connected : forall low bm weights bias weights' bias' m n w w' b b' g bb eps a d,
  let AR := R_arith low in
  holds bm weights (mkShape m n 1) w -> holds bm weights' (mkShape m n 1) w' -> holds bm bias (mkShape m 1 1) b -> holds bm bias' (mkShape m 1 1) b' ->
  (forall i p, (i < m)%N -> (p < n)%N -> Rabs (w i p 0%N - w' i p 0%N) <= eps) -> (forall i, (i < m)%N -> Rabs (b i 0%N 0%N - b' i 0%N 0%N) <= eps) ->
  (forall i, (i < m)%N -> Rsum (map (fun p => Rabs (w i p 0%N)) (upto n)) <= g) -> (forall i, (i < m)%N -> Rabs (b i 0%N 0%N) <= bb) ->
  0 <= g -> 0 <= bb -> 0 <= eps ->
  layer_drift low bm (PFC weights bias) (PFC weights' bias') a d ((g + INR (N.to_nat n) * eps) * a + (bb + eps)) (g * d + (INR (N.to_nat n) * eps * a + eps)).
Proof. exact fc_changed. Qed.
Print Assumptions C93_fully_connected.

Theorem C93_convolution : forall low bm kernels biases kernels' biases' stride ins outs ks h h' bv bv' g bb eps a d,
  let AR := R_arith low in
  all_hold bm kernels ks h -> all_hold bm kernels' ks h' ->
  (forall n t, nth_error biases (N.to_nat n) = Some t -> get_item bm t (mkIndex 0 0 0) = Done (bv n)) ->
  (forall n t, nth_error biases' (N.to_nat n) = Some t -> get_item bm t (mkIndex 0 0 0) = Done (bv' n)) ->
  (forall k i j l, (k < dk outs)%N -> in_shape ks i j l -> Rabs (h k i j l - h' k i j l) <= eps) -> (forall k, (k < dk outs)%N -> Rabs (bv k - bv' k) <= eps) ->
  (forall k, (k < dk outs)%N -> Rsum (map (fun '(i, j, l) => Rabs (h k i j l)) (cells ks)) <= g) -> (forall k, (k < dk outs)%N -> Rabs (bv k) <= bb) ->
  0 <= g -> 0 <= bb -> 0 <= eps ->
  let n := INR (N.to_nat (di ks * dj ks * dk ks)) in
  layer_drift low bm (PConv kernels biases stride ins outs) (PConv kernels' biases' stride ins outs) a d ((g + n * eps) * a + (bb + eps)) (g * d + (n * eps * a + eps)).
Proof. exact conv_changed. Qed.
Print Assumptions C93_convolution.

(** Two f32 networks on the same input, within the sizes of C65: the exact drift plus the rounding errors of either. [n'] and [m'] are
    the same networks over the reals. *)
Theorem C93_float : forall e (BT : Bits R) low bm (n m : network f32) (n' m' : network R) X x a a1 d1 b1 c1 b2 c2,
  @well_built f32 (f32_arith e) f32_bits bm n -> @well_built f32 (f32_arith e) f32_bits bm m -> @well_built R (R_arith low) BT bm n' -> @well_built R (R_arith low) BT bm m' ->
  layers n <> [] -> layers m <> [] ->
  Forall2 exact_params (map params_of (layers n)) (map params_of (layers n')) -> Forall2 exact_params (map params_of (layers m)) (map params_of (layers m')) ->
  net_input_shape n' = net_input_shape n -> net_input_shape m' = net_input_shape m -> net_input_shape m = net_input_shape n ->
  @holds f32 (f32_arith e) bm X (net_input_shape n) x ->
  (forall i j k, in_shape (net_input_shape n) i j k -> fin (x i j k) = true /\ Rabs (real (x i j k)) <= a) -> 0 <= a ->
  net_drift low bm (map params_of (layers n')) (map params_of (layers m')) a 0 a1 d1 ->
  net_bounds e low bm (map params_of (layers n')) a 0 b1 c1 -> net_bounds e low bm (map params_of (layers m')) a 0 b2 c2 ->
  exists n1 m1 Y Z s y z,
    @infer bm f32 (f32_arith e) n X = Done (n1, Ok tt) /\ get_output n1 = Done (Ok Y)
    /\ @infer bm f32 (f32_arith e) m X = Done (m1, Ok tt) /\ get_output m1 = Done (Ok Z)
    /\ @holds f32 (f32_arith e) bm Y s y /\ @holds f32 (f32_arith e) bm Z s z
    /\ forall i j k, in_shape s i j k -> fin (y i j k) = true /\ fin (z i j k) = true /\ Rabs (real (y i j k) - real (z i j k)) <= d1 + c1 + c2.
Proof. exact network_drift_float. Qed.
Print Assumptions C93_float.

(** The pooling and fully connected layers of C65 and the same with the weight 4 changed to 7/2: inputs of at most 9 give outputs at most
    19/2 apart. *)
Example C93_case : well_built Debug x_net /\ well_built Debug x_net_changed /\ layers x_net <> []
  /\ net_drift (-1000) Debug (map params_of (layers x_net)) (map params_of (layers x_net_changed)) 9 0 ((6 + 2 * / 2) * 9 + (1 + / 2)) (6 * 0 + (2 * / 2 * 9 + / 2))
  /\ net_bounds demo_env (-1000) Debug (map params_of (layers x_net)) 9 0 (6 * 9 + 1) (6 * 0 + bound_biased 2 (6 * (9 + 0)) 1).
Proof.
  split; [exact x_net_built|]. split; [exact x_net_changed_built|]. split.
  { intros E. apply (f_equal (map params_of)) in E. rewrite x_net_params in E. discriminate E. }
  split; [exact demo_drift|exact demo_bounds].
Qed.
