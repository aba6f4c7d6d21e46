(** * The larger of two outputs is certified by the error bounds *)
From Coq Require Import Reals Lra.
From Flocq Require Import Core IEEE754.Binary.
From Verif Require Import Base Arith Helper Tensor Network Bincode Serial Float32 Spec SpecLayer SpecNet SpecReal SpecError SpecNetError SpecGain RealArith.
From Verif Require Import Float32Facts ProofsNetError ProofsGain.
Local Open Scope R_scope.

Lemma gtb_real (x y : f32) : fin x = true -> fin y = true -> real y < real x -> f32_gtb x y = true.
Proof. intros Fx Fy L. apply gtb_true. rewrite !rank_finite by assumption. destruct x, y; try discriminate; repeat split; exact L. Qed.

Lemma margin_agrees e (BT : Bits R) low bm (n : network f32) (n' : network R) X X' x x' a d a1 d1 :
  @well_built f32 (f32_arith e) f32_bits bm n -> @well_built R (R_arith low) BT bm n' -> layers n <> [] ->
  Forall2 exact_params (map params_of (layers n)) (map params_of (layers n')) -> net_input_shape n' = net_input_shape n ->
  @holds f32 (f32_arith e) bm X (net_input_shape n) x -> @holds R (R_arith low) bm X' (net_input_shape n) x' ->
  0 <= a -> 0 <= d -> near a d (net_input_shape n) x x' -> net_bounds e low bm (map params_of (layers n')) a d a1 d1 ->
  exists n1 n1' Y Y' s y y',
    @infer bm f32 (f32_arith e) n X = Done (n1, Ok tt) /\ get_output n1 = Done (Ok Y)
    /\ @infer bm R (R_arith low) n' X' = Done (n1', Ok tt) /\ get_output n1' = Done (Ok Y')
    /\ @holds f32 (f32_arith e) bm Y s y /\ @holds R (R_arith low) bm Y' s y'
    /\ forall i j k i' j' k', in_shape s i j k -> in_shape s i' j' k' -> y' i' j' k' + 2 * d1 < y' i j k -> f32_gtb (y i j k) (y i' j' k') = true.
Proof.
  intros B B' NE EP Si HX HX' Ha Hd Hn HB.
  destruct (network_error e BT low bm n n' X X' x x' a d a1 d1 B B' NE EP Si HX HX' Ha Hd Hn HB)
    as (n1 & n1' & Y & Y' & s & y & y' & E1 & O1 & E2 & O2 & H1 & H2 & Nr).
  exists n1, n1', Y, Y', s, y, y'. repeat (split; [assumption|]). intros i j k i' j' k' Hp Hq L.
  destruct (Nr i j k Hp) as (Fp & Dp & _). destruct (Nr i' j' k' Hq) as (Fq & Dq & _).
  apply gtb_real; [assumption|assumption|]. apply Rabs_le_inv in Dp. apply Rabs_le_inv in Dq. lra.
Qed.

Lemma margin_robust e (BT : Bits R) low bm (n : network f32) (n' : network R) X X' x x' a d a1 d1 g :
  @well_built f32 (f32_arith e) f32_bits bm n -> @well_built R (R_arith low) BT bm n' -> layers n <> [] ->
  Forall2 exact_params (map params_of (layers n)) (map params_of (layers n')) -> net_input_shape n' = net_input_shape n ->
  @holds f32 (f32_arith e) bm X (net_input_shape n) x -> @holds f32 (f32_arith e) bm X' (net_input_shape n) x' ->
  (forall i j k, in_shape (net_input_shape n) i j k -> fin (x i j k) = true /\ fin (x' i j k) = true /\ Rabs (real (x i j k)) <= a /\ Rabs (real (x' i j k)) <= a
     /\ Rabs (real (x i j k) - real (x' i j k)) <= d) ->
  0 <= a -> 0 <= d -> net_bounds e low bm (map params_of (layers n')) a 0 a1 d1 -> net_gain low bm (map params_of (layers n')) g ->
  exists n1 n1' Y Y' s y y',
    @infer bm f32 (f32_arith e) n X = Done (n1, Ok tt) /\ get_output n1 = Done (Ok Y)
    /\ @infer bm f32 (f32_arith e) n X' = Done (n1', Ok tt) /\ get_output n1' = Done (Ok Y')
    /\ @holds f32 (f32_arith e) bm Y s y /\ @holds f32 (f32_arith e) bm Y' s y'
    /\ forall i j k i' j' k', in_shape s i j k -> in_shape s i' j' k' -> real (y i' j' k') + 2 * (g * d + 2 * d1) < real (y i j k) ->
         f32_gtb (y' i j k) (y' i' j' k') = true.
Proof.
  intros B B' NE EP Si HX HX' Hin Ha Hd HB HG.
  destruct (network_stable e BT low bm n n' X X' x x' a d a1 d1 g B B' NE EP Si HX HX' Hin Ha Hd HB HG)
    as (n1 & n1' & Y & Y' & s & y & y' & E1 & O1 & E2 & O2 & H1 & H2 & Nr).
  exists n1, n1', Y, Y', s, y, y'. repeat (split; [assumption|]). intros i j k i' j' k' Hp Hq L.
  destruct (Nr i j k Hp) as (_ & Fp & Dp). destruct (Nr i' j' k' Hq) as (_ & Fq & Dq).
  apply gtb_real; [assumption|assumption|]. apply Rabs_le_inv in Dp. apply Rabs_le_inv in Dq. lra.
Qed.

(** The bounds of the example network: outputs 1 apart cannot be confused, nor outputs 2 apart on inputs that differ by at most 1/100. *)
Lemma demo_margin : 2 * (6 * 0 + bound_biased 2 (6 * (9 + 0)) 1) < 1 /\ 2 * (1 * (6 * 1) * / 100 + 2 * (6 * 0 + bound_biased 2 (6 * (9 + 0)) 1)) < 2.
Proof.
  assert (B : bound_biased 2 (6 * (9 + 0)) 1 < / 100); [|lra].
  unfold bound_biased, u, eta. change (2 + 1)%nat with 3%nat. cbn [INR]. lra.
Qed.
