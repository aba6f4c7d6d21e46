(** * A fixed-point network in training mode for the examples *)
From Coq Require Import Reals Lra ZifyBool ZifyNat ZifyN.
From Flocq Require Import Core IEEE754.Binary.
From Verif Require Import Base Arith Helper Tensor Network Bincode Serial Float32 Spec SpecLayer SpecNet SpecReal SpecError SpecNetError SpecModes SpecChain SpecBatch SpecGrid SpecGridBack RealArith RealSums Loops.
From Verif Require Import ProofsTensor LayerFacts TensorFacts RealGrad NetBack RealConv ProofsChain Demo DemoNet DemoReal DemoGrad DemoNetError.
Local Open Scope string_scope.
Local Open Scope R_scope.

(** A pooling layer and a fully connected layer with any two weights and biases, in any arithmetic. *)
Section Any.
Context {F : Type} {AR : Arith F} {BT : Bits F}.
Definition t_tensor (s : shape) (d : list F) : tensor F := mkTensor (mkStride 1 (di s) (di s * dj s)) s d.
Definition t_dot : tensor F := t_tensor (mkShape 1 1 1) [fzero].
Definition t_mp : layer F := LMaxPool (mkMP (mkShape 4 2 1) (mkShape 2 2 1) (mkShape 2 1 1) 2 "pool" Inference []).
Definition t_fc (w b : list F) : layer F := LFC (mkFC (t_tensor (mkShape 2 2 1) w) t_dot t_dot (t_tensor (mkShape 2 1 1) b) t_dot t_dot "dense" Inference).
Definition t_net (w b : list F) : network F :=
  match run_op Debug (network_new Training) (OAdd t_mp) with
  | Done (n1, _) => match run_op Debug n1 (OAdd (t_fc w b)) with Done (n2, _) => n2 | Panic _ => network_new Training end
  | Panic _ => network_new Training
  end.

Lemma t_layers w b : let z s := t_tensor s (repeat fzero (N.to_nat (di s * dj s * dk s))) in
  layers (t_net w b) = [LMaxPool (mkMP (mkShape 4 2 1) (mkShape 2 2 1) (mkShape 2 1 1) 2 "pool" Training [0; 0]%N);
    LFC (mkFC (t_tensor (mkShape 2 2 1) w) (z (mkShape 2 2 1)) (z (mkShape 2 2 1)) (t_tensor (mkShape 2 1 1) b) (z (mkShape 2 1 1)) (z (mkShape 2 1 1)) "dense" Training)]
  /\ net_input_shape (t_net w b) = mkShape 4 2 1 /\ net_output_shape (t_net w b) = mkShape 2 1 1.
Proof. lazy. auto. Qed.

Lemma t_built w0 w1 w2 w3 b0 b1 : training_built Debug (t_net [w0; w1; w2; w3] [b0; b1]).
Proof.
  unfold t_net.
  destruct (run_op Debug (network_new Training) (OAdd t_mp)) as [(n1 & r1)|] eqn:E1; [|apply train_new].
  assert (B1 : training_built Debug n1).
  { refine (train_step Debug (network_new Training) (OAdd t_mp) n1 r1 (train_new _) _ _ E1); [|discriminate]. repeat split; try reflexivity; discriminate. }
  destruct (run_op Debug n1 (OAdd (t_fc [w0; w1; w2; w3] [b0; b1]))) as [(n2 & r2)|] eqn:E2; [|apply train_new].
  refine (train_step Debug n1 (OAdd (t_fc _ _)) n2 r2 B1 _ _ E2); [|discriminate].
  exists 2%N, 2%N. split; [|split; [|discriminate]]; (split; [|reflexivity]); split; try reflexivity; repeat split; reflexivity.
Qed.

Lemma t_zero w b : no_gradients Debug (t_net w b).
Proof.
  intros [|[|i]] f N; rewrite (proj1 (t_layers w b)) in N; try discriminate; [|destruct i; discriminate]. injection N as <-.
  cbn [fc_weights_gradients fc_weights fc_bias_gradients fc_bias t_tensor tshape].
  split; apply holds_iff; (split; [repeat split; reflexivity|lazy; reflexivity]).
Qed.

Lemma t_params w b : map params_of (layers (t_net w b)) =
  [PMaxPool (mkShape 4 2 1) (mkShape 2 2 1) (mkShape 2 1 1) 2; PFC (t_tensor (mkShape 2 2 1) w) (t_tensor (mkShape 2 1 1) b)].
Proof. rewrite (proj1 (t_layers w b)). reflexivity. Qed.
End Any.

(** The same network in f32 and over the reals. *)
Definition t_f32 : network f32 := t_net (map f32_of_Z [1; -2; 3; 4]%Z) (map f32_of_Z [1; -1]%Z).
Definition t_R : network R := t_net [1; -2; 3; 4] [1; -1].

Lemma t_exact : Forall2 exact_params (map params_of (layers t_f32)) (map params_of (layers t_R)).
Proof.
  unfold t_f32, t_R. rewrite 2 t_params. constructor; [repeat split|]. constructor; [|constructor].
  split; (split; [reflexivity|split; [reflexivity|split]]); cbn [data t_tensor map]; try (cbn; unfold F2R; cbn; repeat f_equal; lra); repeat constructor.
Qed.

(** Inputs of at most 9 with two fractional bits, integer loss gradients of at most 5. *)
Definition level0 : level := mkLevel (-2) 9 0 (INR 1 * (7 * 5)).
Definition level1 : level := mkLevel (-2) 9 (0 + 0) (7 * 5).
Definition level2 : level := mkLevel (0 + -2) (6 * 9 + 1) 0 5.

Lemma t_training : net_training (-1000) Debug 2 (map params_of (layers t_R)) level0 [level1; level2].
Proof.
  assert (P2 : powerRZ 2 (-2) = / 4) by (unfold powerRZ; cbv - [Rmult Rinv Rplus IZR Ropp]; lra).
  assert (P0 : powerRZ 2 0 = 1) by reflexivity.
  unfold t_R. rewrite t_params. cbn [net_training]. split; [|split; [|exact I]].
  - refine (TrainMaxPool (-1000) Debug 2 _ _ _ _ 1 level0 level1 _ _ _ _ _ _ _); cbn [level0 level1 fg fa bg ba]; try reflexivity.
    + constructor; try reflexivity; lra.
    + lra.
    + intros a b c (Ha & Hb & Hc). cbn [di dj dk] in *. change (cells (mkShape 2 1 1)) with [(0, 0, 0); (1, 0, 0)]%N. cbn [filter di dj dk].
      assert (c = 0%N) by lia. subst c. assert (Db : (b = 0 \/ b = 1)%N) by lia. assert (Da : (a = 0 \/ a = 1 \/ a = 2 \/ a = 3)%N) by lia.
      destruct Db as [-> | ->], Da as [-> | [-> | [-> | ->]]]; vm_compute; constructor.
    + split; [lia|]. rewrite P0. cbn [INR]. lra.
  - set (W := t_tensor (mkShape 2 2 1) [1; -2; 3; 4]). set (B := t_tensor (mkShape 2 1 1) [1; -1]).
    assert (HW : holds Debug W (mkShape 2 2 1) (at_ W)) by demo_rhold.
    assert (HB : holds Debug B (mkShape 2 1 1) (at_ B)) by demo_rhold.
    assert (GW : forall i p, (i < 2)%N -> (p < 2)%N -> on_grid 0 (at_ W i p 0%N)).
    { intros i p Hi Hp. assert (D : (i = 0 \/ i = 1)%N) by lia. assert (D' : (p = 0 \/ p = 1)%N) by lia.
      destruct D as [-> | ->], D' as [-> | ->]; [exists 1%Z|exists 3%Z|exists (-2)%Z|exists 4%Z]; rewrite Rmult_1_r; reflexivity. }
    refine (TrainFC (-1000) Debug 2 W B 2 2 (at_ W) 0 7 level1 level2 _ HW GW _ _ _ _ _ _ _); cbn [level1 level2 fg fa bg ba]; try reflexivity; try lra.
    + apply (GridFC (-1000) Debug W B 2 2 _ _ 6 1 (-2) 0 9 HW HB); try lra; [exact GW| | | |].
      * intros i Hi. assert (D : (i = 0 \/ i = 1)%N) by lia. destruct D as [-> | ->]; [exists 4%Z|exists (-4)%Z]; unfold powerRZ; cbn [Z.add Z.opp Pos.to_nat pow]; cbv - [Rmult Rinv Rplus IZR Ropp]; lra.
      * intros i Hi. change (upto 2) with [0; 1]%N. cbn [map Rsum fold_right]. assert (D : i = 0%N \/ i = 1%N) by lia.
        destruct D as [-> | ->]; cbv - [Rplus Rle IZR Ropp Rabs]; repeat (first [rewrite Rabs_pos_eq by lra|rewrite Rabs_left by lra]); lra.
      * intros i Hi. assert (D : i = 0%N \/ i = 1%N) by lia.
        destruct D as [-> | ->]; cbv - [Rplus Rle IZR Ropp Rabs]; [rewrite Rabs_pos_eq by lra|rewrite Rabs_left by lra]; lra.
      * split; [lia|]. change (0 + -2)%Z with (-2)%Z. rewrite P2. lra.
    + intros i Hi. change (upto 2) with [0; 1]%N. cbn [map Rsum fold_right]. assert (D : i = 0%N \/ i = 1%N) by lia.
      destruct D as [-> | ->]; cbv - [Rplus Rle IZR Ropp Rabs]; repeat (first [rewrite Rabs_pos_eq by lra|rewrite Rabs_left by lra]); lra.
    + split; [lia|]. change (0 + 0)%Z with 0%Z. rewrite P0. lra.
    + split; [lia|]. rewrite P0. lra.
    + split; [lia|]. change (0 + -2)%Z with (-2)%Z. rewrite P2. lra.
Qed.

(** Integer samples. *)
Lemma ints_on g a (s : shape) (l : list Z) : (forall z, on_grid g (IZR z)) -> 0 <= a -> Forall (fun z => fin (f32_of_Z z) = true /\ real (f32_of_Z z) = IZR z /\ Rabs (IZR z) <= a) l ->
  exact_on g a s (at_ (tn s l)) (at_ (rt s (map IZR l))).
Proof.
  intros G P A i j k _. unfold at_. cbn [tshape tn rt data]. set (q := N.to_nat (flat s i j k)). clearbody q. revert q.
  induction A as [|z l (Fz & Ez & Bz) _ IH]; intros q.
  - destruct q; cbn [map nth]; (split; [reflexivity|split; [reflexivity|split; [exact (G 0%Z)|]]]); change (@fzero R _) with 0; rewrite Rabs_R0; exact P.
  - destruct q as [|q]; cbn [map nth]; [|apply IH]. auto.
Qed.

Definition t_batch : list (tensor f32 * tensor f32) :=
  [(tn (mkShape 4 2 1) [1; 2; 3; 9; -5; 6; 7; -8]%Z, tn (mkShape 2 1 1) [2; -3]%Z); (tn (mkShape 4 2 1) [0; 5; 1; -2; 3; -2; -5; 0]%Z, tn (mkShape 2 1 1) [1; 4]%Z)].
Definition t_batch_R : list (tensor R * tensor R) :=
  [(rt (mkShape 4 2 1) (map IZR [1; 2; 3; 9; -5; 6; 7; -8]%Z), rt (mkShape 2 1 1) (map IZR [2; -3]%Z));
   (rt (mkShape 4 2 1) (map IZR [0; 5; 1; -2; 3; -2; -5; 0]%Z), rt (mkShape 2 1 1) (map IZR [1; 4]%Z))].

Lemma t_samples : Forall2 (sample_grid demo_env (-1000) Debug (mkShape 4 2 1) (mkShape 2 1 1) level0 level2) t_batch t_batch_R.
Proof.
  assert (G2 : forall z, on_grid (-2) (IZR z)).
  { intros z. exists (4 * z)%Z. rewrite mult_IZR. unfold powerRZ. cbv - [Rmult Rinv Rplus IZR Ropp]. lra. }
  assert (G0 : forall z, on_grid 0 (IZR z)) by (intros z; exists z; cbn; lra).
  assert (S : forall l r, Forall (fun z => fin (f32_of_Z z) = true /\ real (f32_of_Z z) = IZR z /\ Rabs (IZR z) <= 9) l ->
    Forall (fun z => fin (f32_of_Z z) = true /\ real (f32_of_Z z) = IZR z /\ Rabs (IZR z) <= 5) r -> length l = 8%nat -> length r = 2%nat ->
    sample_grid demo_env (-1000) Debug (mkShape 4 2 1) (mkShape 2 1 1) level0 level2 (tn (mkShape 4 2 1) l, tn (mkShape 2 1 1) r)
      (rt (mkShape 4 2 1) (map IZR l), rt (mkShape 2 1 1) (map IZR r))).
  { intros l r Al Ar Ll Lr. eexists _, _, _, _. cbn [fst snd level0 level2 fg fa bg ba].
    split; [|split; [|split; [exact (ints_on (-2) 9 _ l G2 ltac:(lra) Al)|split; [|split; [|exact (ints_on 0 5 _ r G0 ltac:(lra) Ar)]]]]].
    1,3: refine (demo_holds Debug (tn _ _) _).
    3,4: refine (demo_holds Debug (rt _ _) _).
    all: unfold wfb; cbn [tshape strides data tn rt si sj sk di dj dk]; unfold len; rewrite map_length, ?Ll, ?Lr; vm_compute; reflexivity. }
  assert (Q : forall z, fin (f32_of_Z z) = true -> real (f32_of_Z z) = IZR z -> forall a, (Z.abs z <= a)%Z -> fin (f32_of_Z z) = true /\ real (f32_of_Z z) = IZR z /\ Rabs (IZR z) <= IZR a).
  { intros z F E a H. split; [exact F|]. split; [exact E|]. rewrite <- abs_IZR. apply IZR_le. exact H. }
  constructor; [|constructor; [|constructor]]; apply S; try reflexivity; repeat (constructor; [apply Q; [reflexivity|cbn; unfold F2R; cbn; lra|lia]|]); constructor.
Qed.

(** No pre-activation is 0 and no window has two maxima. *)
Lemma smooth_at (l : list R) win p0 p1 : let X := rt (mkShape 4 2 1) l in
  length l = 8%nat -> winners (-1000) (mkShape 2 2 1) 2 (mkShape 2 1 1) (at_ X) win ->
  pool_map (-1000) (mkShape 2 2 1) 2 (at_ X) 0 0 0 = p0 -> pool_map (-1000) (mkShape 2 2 1) 2 (at_ X) 1 0 0 = p1 ->
  p0 + 3 * p1 + 1 <> 0 -> -2 * p0 + 4 * p1 - 1 <> 0 -> smooth (-1000) Debug (map params_of (layers t_R)) X.
Proof.
  cbv zeta. intros L WN P0 P1 U0 U1. set (X := rt (mkShape 4 2 1) l) in *. unfold t_R. rewrite t_params. cbn [smooth layer_smooth].
  assert (HX : holds Debug X (mkShape 4 2 1) (at_ X)).
  { refine (demo_holds Debug X _). unfold X, wfb. cbn [tshape strides data rt si sj sk di dj dk]. unfold len. rewrite L. vm_compute. reflexivity. }
  split; [exists (at_ X), win; split; [exact HX|exact WN]|].
  intros Z C. apply (computes_map (-1000) Debug (PMaxPool (mkShape 4 2 1) (mkShape 2 2 1) (mkShape 2 1 1) 2) X Z (at_ X)) in C; [|exact HX]. cbn [pout layer_map] in C.
  split; [|intros; exact I].
  intros M n w b x Hw Hb Hx i Hi.
  set (W := t_tensor (mkShape 2 2 1) [1; -2; 3; 4]) in *. set (B := t_tensor (mkShape 2 1 1) [1; -1]) in *.
  assert (HW : holds Debug W (mkShape 2 2 1) (at_ W)) by demo_rhold. assert (HB : holds Debug B (mkShape 2 1 1) (at_ B)) by demo_rhold.
  pose proof (holds_shape _ _ _ _ _ _ Hw HW) as S. injection S as -> ->.
  assert (E : fc_pre 2 w b x i = fc_pre 2 (at_ W) (at_ B) (pool_map (-1000) (mkShape 2 2 1) 2 (at_ X)) i).
  { apply fc_pre_ext.
    - intros p Hp. apply (holds_fun Debug _ _ _ _ Hw HW). repeat split; cbn; lia.
    - apply (holds_fun Debug _ _ _ _ Hb HB). repeat split; cbn; lia.
    - intros p Hp. apply (holds_fun Debug _ _ _ _ Hx C). repeat split; cbn; lia. }
  rewrite E. assert (D : i = 0%N \/ i = 1%N) by lia.
  unfold fc_pre. change (upto 2) with [0; 1]%N. cbn [map Rsum fold_right]. rewrite P0, P1. clear - D U0 U1.
  destruct D as [-> | ->]; cbv - [Rplus Rmult IZR Ropp not]; cbn [INR] in *; lra.
Qed.

Ltac demo_max := cbv - [Rmax IZR]; repeat match goal with |- context [Rmax ?a ?b] => first [rewrite (Rmax_left a b) by lra|rewrite (Rmax_right a b) by lra] end; reflexivity.

Lemma t_smooth : Forall (sample_ok (-1000) Debug t_R) t_batch_R.
Proof.
  destruct (t_layers [1; -2; 3; 4] [1; -1]) as (_ & SI & SO).
  repeat apply Forall_cons; try apply Forall_nil; cbn [fst snd]; (split; [unfold t_R; rewrite SI; demo_shaped|split; [unfold t_R; rewrite SO; demo_shaped|]]); cbn [fst].
  - refine (smooth_at _ (fun i _ _ => if N.eqb i 0 then (1, 1, 0)%N else (3, 0, 0)%N) 6 9 _ _ _ _ _ _); try reflexivity; try lra; try demo_max.
    intros i j k (Hi & Hj & Hk). cbn [di dj dk] in *. assert (j = 0%N) by lia. assert (k = 0%N) by lia. subst. assert (D : i = 0%N \/ i = 1%N) by lia.
    destruct D as [-> | ->]; (split; [vm_compute; tauto|split; [cbv - [Rlt IZR]; lra|]]); intros c' Hc Ne; vm_compute in Hc;
      repeat (destruct Hc as [<-|Hc]; [first [exfalso; apply Ne; reflexivity|cbv - [Rlt IZR]; lra]|]); destruct Hc.
  - refine (smooth_at _ (fun i _ _ => if N.eqb i 0 then (1, 0, 0)%N else (2, 0, 0)%N) 5 1 _ _ _ _ _ _); try reflexivity; try lra; try demo_max.
    intros i j k (Hi & Hj & Hk). cbn [di dj dk] in *. assert (j = 0%N) by lia. assert (k = 0%N) by lia. subst. assert (D : i = 0%N \/ i = 1%N) by lia.
    destruct D as [-> | ->]; (split; [vm_compute; tauto|split; [cbv - [Rlt IZR]; lra|]]); intros c' Hc Ne; vm_compute in Hc;
      repeat (destruct Hc as [<-|Hc]; [first [exfalso; apply Ne; reflexivity|cbv - [Rlt IZR]; lra]|]); destruct Hc.
Qed.
