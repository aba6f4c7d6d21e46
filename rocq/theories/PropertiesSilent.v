(** * C98: units that did not fire *)
From Verif Require Import Base Arith Helper Tensor Convolution Network Bincode Serial Spec SpecLayer SpecNet SpecModes Float32 SpecSparse SpecOpposed SpecSilent ProofsSilentNet ProofsSilentTwin.
From Verif Require Import Loops TensorFacts ProofsTensor LayerFacts NetBack Demo DemoNet DemoReal DemoGrad DemoGridTrain.
Local Open Scope N_scope.

(** A fully connected layer of a network trained in f32: through a session in which its output [u] is zero for every sample, the gradients
    stored for the weights and the bias of [u] keep their values. The gradients that reach [u] and the inputs of the layer must be finite,
    and the stored gradients must not be -0.0, which would become +0.0. *)
Theorem C98_idle : forall e bm i u (n m : network f32) samples, let AR := f32_arith e in
  silent_session bm i u n samples m -> forall f M k wg bg,
  training_built bm n -> Forall stays_inside (layers n) -> Forall backs (layers n) -> Forall (fun a => wf (fst a) /\ wf (snd a)) samples ->
  nth_error (layers n) i = Some (LFC f) -> u < M ->
  holds bm (fc_weights_gradients f) (mkShape M k 1) wg -> holds bm (fc_bias_gradients f) (mkShape M 1 1) bg ->
  (forall q, q < k -> wg u q 0 <> Binary.B754_zero 24 128 true) -> bg u 0 0 <> Binary.B754_zero 24 128 true ->
  exists f2 wg2 bg2, nth_error (layers m) i = Some (LFC f2)
    /\ holds bm (fc_weights_gradients f2) (mkShape M k 1) wg2 /\ holds bm (fc_bias_gradients f2) (mkShape M 1 1) bg2
    /\ (forall q, q < k -> equal (wg2 u q 0) (wg u q 0)) /\ equal (bg2 u 0 0) (bg u 0 0).
Proof. exact @session_idle. Qed.
Print Assumptions C98_idle.

(** Two networks that differ in the weights and the bias of the unit [u] alone. If on some input [u] gives zero in both, all values at the
    boundaries between layers are the same, all gradients there are the same, and so are all stored gradients. *)
Theorem C98_unseen : forall e bm (n n' n1 n1' n2 : network f32) X G i f f' u M k w w' b b', let AR := f32_arith e in
  training_built bm n -> training_built bm n' -> Forall stays_inside (layers n) -> Forall backs (layers n) -> wf X -> wf G ->
  length (layers n') = length (layers n) ->
  (forall j l l', j <> i -> nth_error (layers n) j = Some l -> nth_error (layers n') j = Some l' -> layer_related equal bm l l') ->
  nth_error (layers n) i = Some (LFC f) -> nth_error (layers n') i = Some (LFC f') -> u < M ->
  holds bm (fc_weights f) (mkShape M k 1) w -> holds bm (fc_weights f') (mkShape M k 1) w' ->
  holds bm (fc_bias f) (mkShape M 1 1) b -> holds bm (fc_bias f') (mkShape M 1 1) b' ->
  (forall a q, a < M -> q < k -> a <> u -> w' a q 0 = w a q 0) -> (forall a, a < M -> a <> u -> b' a 0 0 = b a 0 0) ->
  (forall q, q < k -> finite (w u q 0) /\ finite (w' u q 0)) ->
  related equal bm (fc_weights_gradients f) (fc_weights_gradients f') -> related equal bm (fc_bias_gradients f) (fc_bias_gradients f') ->
  infer bm n X = Done (n1, Ok tt) -> infer bm n' X = Done (n1', Ok tt) -> net_backward bm n1 G = Done (n2, Ok tt) ->
  silent bm n1 n2 i u -> cell_of bm (intermediate_states n1') (S i) (mkIndex u 0 0) f32_zero ->
  exists n2', net_backward bm n1' G = Done (n2', Ok tt)
    /\ intermediate_states n1' = intermediate_states n1
    /\ Forall2 (related equal bm) (intermediate_gradients n2) (intermediate_gradients n2')
    /\ (forall j l l', j <> i -> nth_error (layers n2) j = Some l -> nth_error (layers n2') j = Some l' -> layer_related equal bm l l')
    /\ exists f2 f2', nth_error (layers n2) i = Some (LFC f2) /\ nth_error (layers n2') i = Some (LFC f2')
         /\ related equal bm (fc_weights_gradients f2) (fc_weights_gradients f2') /\ related equal bm (fc_bias_gradients f2) (fc_bias_gradients f2').
Proof. exact @net_twin. Qed.
Print Assumptions C98_unseen.

(** The network of C81, whose second output does not fire on this sample although the loss depends on it, and a network with other weights
    for that output, on which it does not fire either. *)
Definition s_in : tensor f32 := tn (mkShape 4 2 1) [0; 5; 1; -2; 3; -2; -5; 0]%Z.
Definition s_grad : tensor f32 := tn (mkShape 2 1 1) [1; 4]%Z.
Definition s_other : network f32 := t_net (map f32_of_Z [1; -7; 3; 1]%Z) (map f32_of_Z [1; 2]%Z).
Definition s_fwd (n : network f32) : network f32 := match infer Debug n s_in with Done (n1, _) => n1 | Panic _ => n end.
Definition s_back (n : network f32) : network f32 := match net_backward Debug n s_grad with Done (n1, _) => n1 | Panic _ => n end.
Definition grads_of (n : network f32) := map (fun l => match l with LFC f => Some (tbits (fc_weights_gradients f), tbits (fc_bias_gradients f)) | _ => None end) (layers n).

Example C98_case : training_built Debug t_f32 /\ training_built Debug s_other /\ Forall stays_inside (layers t_f32) /\ Forall backs (layers t_f32)
  /\ wf s_in /\ wf s_grad
  /\ (forall j l l', j <> 1%nat -> nth_error (layers t_f32) j = Some l -> nth_error (layers s_other) j = Some l' -> layer_related equal Debug l l')
  /\ infer Debug t_f32 s_in = Done (s_fwd t_f32, Ok tt) /\ infer Debug s_other s_in = Done (s_fwd s_other, Ok tt)
  /\ net_backward Debug (s_fwd t_f32) s_grad = Done (s_back (s_fwd t_f32), Ok tt)
  /\ silent Debug (s_fwd t_f32) (s_back (s_fwd t_f32)) 1 1 /\ cell_of Debug (intermediate_states (s_fwd s_other)) 2 (mkIndex 1 0 0) f32_zero
  /\ silent_session Debug 1 1 t_f32 [(s_in, s_grad)] (s_back (s_fwd t_f32))
  /\ grads_of (s_back (s_fwd t_f32)) = [None; Some (ints [5; 0; 1; 0], ints [1; 0])]%Z.
Proof.
  assert (I1 : infer Debug t_f32 s_in = Done (s_fwd t_f32, Ok tt)) by reflexivity.
  assert (I2 : infer Debug s_other s_in = Done (s_fwd s_other, Ok tt)) by reflexivity.
  assert (B1 : net_backward Debug (s_fwd t_f32) s_grad = Done (s_back (s_fwd t_f32), Ok tt)) by reflexivity.
  assert (S1 : silent Debug (s_fwd t_f32) (s_back (s_fwd t_f32)) 1 1).
  { split; [eexists; split; reflexivity|]. eexists. split; [eexists; split; reflexivity|reflexivity]. }
  split; [apply t_built|]. split; [apply t_built|].
  pose proof (t_layers (map f32_of_Z [1; -2; 3; 4]%Z) (map f32_of_Z [1; -1]%Z)) as (L & _). fold t_f32 in L.
  pose proof (t_layers (map f32_of_Z [1; -7; 3; 1]%Z) (map f32_of_Z [1; 2]%Z)) as (L' & _). fold s_other in L'.
  rewrite L, L'. split; [repeat constructor|]. split; [repeat constructor|]. split; [demo_wf|]. split; [demo_wf|].
  split. { intros [|[|j]] l l' Nj N1 N2; [|congruence|destruct j; discriminate]. injection N1 as <-. injection N2 as <-. repeat split. }
  split; [exact I1|]. split; [exact I2|]. split; [exact B1|]. split; [exact S1|].
  split; [eexists; split; reflexivity|].
  split. { eapply silent_sample; [exact I1|exact B1|exact S1| |apply silent_end]. intros t N. injection N as <-. repeat constructor. }
  vm_compute. reflexivity.
Qed.
