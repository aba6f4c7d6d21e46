(** * Layers and a network over the reals for the examples *)
From Coq Require Import Reals Lra ZifyBool ZifyNat ZifyN.
From Verif Require Import Base Arith Helper Tensor Network Bincode Serial Spec SpecLayer SpecNet SpecReal SpecChain Loops TensorFacts ProofsTensor LayerFacts RealArith RealGrad NetBack RealConv ProofsChain Float32 Demo DemoReal.
Local Open Scope string_scope.
Local Open Scope R_scope.

#[export] Instance demo_bits_R : Bits R := {| fto_bits := fun _ => 0%N; fof_bits := fun _ => 0%R |}.

Definition zero1 : tensor R := rt (mkShape 1 1 1) [0].
Definition zero2 : tensor R := rt (mkShape 2 1 1) [0; 0].
Definition zero22 : tensor R := rt (mkShape 2 2 1) [0; 0; 0; 0].

(** [Forall P] over a computed list of layers: the list is computed, not [P]. *)
Ltac demo_layers :=
  match goal with |- Forall ?P ?l =>
    let l' := eval cbv - [Rplus Rmult Rminus Ropp IZR Rlt_dec Req_EM_T Rmax Rdiv exp sqrt] in l in change (Forall P l')
  end;
  repeat (constructor; [repeat split; try reflexivity; try discriminate; repeat constructor|]); constructor.

(** relu (x + y + 1), relu (x - y) *)
Definition r_fc : fc_layer R := mkFC (rt (mkShape 2 2 1) [1; 1; 1; -1]) zero22 zero22 (rt (mkShape 2 1 1) [1; 0]) zero2 zero2 "dense" Training.
Lemma r_fc_ok : fc_ok 2 2 r_fc.
Proof. do 2 (split; [demo_shaped|]). intros _. do 3 (split; [demo_shaped|]). demo_shaped. Qed.

(** Two windows over four values, and overlapping windows over three *)
Definition r_mp : mp_layer := mkMP (mkShape 4 1 1) (mkShape 2 1 1) (mkShape 2 1 1) 2 "pool" Training [0; 0]%N.
Definition r_mp_overlap : mp_layer := mkMP (mkShape 3 1 1) (mkShape 2 1 1) (mkShape 2 1 1) 1 "pool" Training [0; 0]%N.
Lemma r_mp_ok : mp_ok r_mp.
Proof. repeat split; try reflexivity; try discriminate. repeat constructor. Qed.
Lemma r_mp_overlap_ok : mp_ok r_mp_overlap.
Proof. repeat split; try reflexivity; try discriminate. repeat constructor. Qed.

Definition r_sm : sm_layer R := mkSM (mkShape 2 1 1) "soft" zero1 zero2 Training.
Lemma r_sm_ok : sm_ok r_sm.
Proof. split; [repeat split; reflexivity|]. intros _. split; demo_shaped. Qed.

Lemma r_winners : winners (-1000) (mkShape 2 1 1) 1 (mkShape 2 1 1) (at_ (rt (mkShape 3 1 1) [1; 5; 2])) (fun _ _ _ => (1, 0, 0)%N).
Proof.
  intros i j k (Hi & Hj & Hk). cbn [di dj dk] in *. assert (j = 0%N) by lia. assert (k = 0%N) by lia. subst.
  assert (D : i = 0%N \/ i = 1%N) by lia. destruct D as [-> | ->].
  - split; [right; left; reflexivity|]. split; [cbv - [Rlt IZR]; lra|]. intros c' [<-|[<-|[]]] Ne; [cbv - [Rlt IZR]; lra|exfalso; apply Ne; reflexivity].
  - split; [left; reflexivity|]. split; [cbv - [Rlt IZR]; lra|]. intros c' [<-|[<-|[]]] Ne; [exfalso; apply Ne; reflexivity|cbv - [Rlt IZR]; lra].
Qed.

(** Pooling, a fully connected layer, softmax, added in training mode *)
Definition r_ops : list (net_op R) := [OAdd (LMaxPool r_mp); OAdd (LFC r_fc); OAdd (LSoftmax r_sm)].
Fixpoint run_ops (n : network R) (ops : list (net_op R)) : network R :=
  match ops with
  | [] => n
  | op :: ops' => match run_op Debug n op with Done (n', _) => run_ops n' ops' | Panic _ => network_new Training end
  end.
Definition r_net : network R := run_ops (network_new Training) r_ops.

Lemma run_ops_training ops : forall n, training_built Debug n -> Forall (fun op => good_op op /\ op <> OInference) ops -> training_built Debug (run_ops n ops).
Proof.
  induction ops as [|op ops IH]; intros n R G; cbn [run_ops]; [exact R|]. inversion G; subst.
  destruct (run_op Debug n op) as [(n1 & r)|] eqn:E1; [|apply train_new]. apply IH; [|assumption]. eapply train_step; try eassumption; tauto.
Qed.

Lemma r_net_built : training_built Debug r_net.
Proof.
  apply run_ops_training; [apply train_new|]. constructor; [split; [exact r_mp_ok|discriminate]|]. constructor; [split; [exists 2%N, 2%N; exact r_fc_ok|discriminate]|].
  constructor; [split; [exact r_sm_ok|discriminate]|constructor].
Qed.

Lemma r_net_params : map params_of (layers r_net) =
  [PMaxPool (mkShape 4 1 1) (mkShape 2 1 1) (mkShape 2 1 1) 2; PFC (fc_weights r_fc) (fc_bias r_fc); PSoftmax (mkShape 2 1 1)].
Proof. run_R. reflexivity. Qed.

Definition r_x : tensor R := rt (mkShape 4 1 1) [1; 2; 4; 3].

Lemma r_net_smooth : smooth (-1000) Debug (map params_of (layers r_net)) r_x.
Proof.
  rewrite r_net_params. cbn [smooth layer_smooth].
  assert (HX : holds Debug r_x (mkShape 4 1 1) (at_ r_x)) by demo_rhold.
  split; [exists (at_ r_x), (fun i _ _ => ((if N.eqb i 0 then 1 else 2)%N, 0%N, 0%N)); split; [exact HX|]|].
  - intros i j k (Hi & Hj & Hk). cbn [di dj dk] in *. assert (j = 0%N) by lia. assert (k = 0%N) by lia. subst.
    assert (D : i = 0%N \/ i = 1%N) by lia. destruct D as [-> | ->].
    + split; [right; left; reflexivity|]. split; [cbv - [Rlt IZR]; lra|]. intros c' [<-|[<-|[]]] Ne; [cbv - [Rlt IZR]; lra|exfalso; apply Ne; reflexivity].
    + split; [left; reflexivity|]. split; [cbv - [Rlt IZR]; lra|]. intros c' [<-|[<-|[]]] Ne; [exfalso; apply Ne; reflexivity|cbv - [Rlt IZR]; lra].
  - intros Z C. apply (computes_map (-1000) Debug (PMaxPool (mkShape 4 1 1) (mkShape 2 1 1) (mkShape 2 1 1) 2) r_x Z (at_ r_x)) in C; [|exact HX]. cbn [pout layer_map] in C.
    split; [|intros; split; [exact I|intros; exact I]].
    intros M n w b x Hw Hb Hx i Hi.
    assert (HW : holds Debug (fc_weights r_fc) (mkShape 2 2 1) (at_ (fc_weights r_fc))) by demo_rhold.
    assert (HB : holds Debug (fc_bias r_fc) (mkShape 2 1 1) (at_ (fc_bias r_fc))) by demo_rhold.
    pose proof (holds_shape _ _ _ _ _ _ Hw HW) as S. injection S as -> ->.
    assert (E : fc_pre 2 w b x i = fc_pre 2 (at_ (fc_weights r_fc)) (at_ (fc_bias r_fc)) (pool_map (-1000) (mkShape 2 1 1) 2 (at_ r_x)) i).
    { apply fc_pre_ext.
      - intros p Hp. apply (holds_fun Debug _ _ _ _ Hw HW). repeat split; cbn; lia.
      - apply (holds_fun Debug _ _ _ _ Hb HB). repeat split; cbn; lia.
      - intros p Hp. apply (holds_fun Debug _ _ _ _ Hx C). repeat split; cbn; lia. }
    rewrite E. assert (D : i = 0%N \/ i = 1%N) by lia. clear - D.
    assert (P0 : pool_map (-1000) (mkShape 2 1 1) 2 (at_ r_x) 0 0 0 = 2).
    { cbv - [Rmax IZR]. rewrite (Rmax_left 2 (-1000)) by lra. rewrite Rmax_right by lra. reflexivity. }
    assert (P1 : pool_map (-1000) (mkShape 2 1 1) 2 (at_ r_x) 1 0 0 = 4).
    { cbv - [Rmax IZR]. rewrite (Rmax_left 3 (-1000)) by lra. rewrite Rmax_left by lra. reflexivity. }
    unfold fc_pre. change (upto 2) with [0; 1]%N. cbn [map Rsum fold_right]. rewrite P0, P1.
    destruct D as [-> | ->]; cbv - [Rplus Rmult IZR Ropp]; lra.
Qed.

(** A convolution of three values, a fully connected layer, softmax *)
Definition r_kernel : tensor R := rt (mkShape 2 1 1) [1; 2].
Definition r_cv : conv_layer R :=
  mkConv [r_kernel] [rt (mkShape 1 1 1) [1]] [zero2] [zero1] 1 zero2 (mkShape 3 1 1) (mkShape 2 1 1) "conv" Training.
Lemma r_cv_ok : conv_layer_ok (mkShape 2 1 1) r_cv.
Proof.
  split; [constructor; [demo_shaped|constructor]|]. split; [reflexivity|]. split; [vm_compute; discriminate|].
  split; [constructor; [split; [demo_wf|repeat split; discriminate]|constructor]|].
  split; [repeat split; reflexivity|]. split; [repeat split; reflexivity|].
  split; [intros ch H; repeat split; try reflexivity; try discriminate; exact H|].
  intros _. split; [demo_shaped|]. split; [constructor; [demo_shaped|constructor]|reflexivity].
Qed.

Definition r_cops : list (net_op R) := [OAdd (LConv r_cv); OAdd (LFC r_fc); OAdd (LSoftmax r_sm)].
Definition r_cnet : network R := run_ops (network_new Training) r_cops.

Lemma r_cnet_built : training_built Debug r_cnet.
Proof.
  apply run_ops_training; [apply train_new|]. constructor; [split; [exists (mkShape 2 1 1); split; [repeat split; reflexivity|exact r_cv_ok]|discriminate]|].
  constructor; [split; [exists 2%N, 2%N; exact r_fc_ok|discriminate]|]. constructor; [split; [exact r_sm_ok|discriminate]|constructor].
Qed.

Lemma r_cnet_params : map params_of (layers r_cnet) =
  [PConv (cv_kernels r_cv) (cv_biases r_cv) 1 (mkShape 3 1 1) (mkShape 2 1 1); PFC (fc_weights r_fc) (fc_bias r_fc); PSoftmax (mkShape 2 1 1)].
Proof. run_R. reflexivity. Qed.

Definition r_cx : tensor R := rt (mkShape 3 1 1) [1; 2; 3].

Lemma r_conv_pre h b x i : all_hold Debug [r_kernel] (mkShape 2 1 1) h -> b 0%N = 1 -> holds Debug r_cx (mkShape 3 1 1) x -> (i < 2)%N ->
  conv_pre (mkShape 2 1 1) 1 h b x i 0 0 = if N.eqb i 0 then 6 else 9.
Proof.
  intros Hh Hb Hx Hi.
  assert (HX : holds Debug r_cx (mkShape 3 1 1) (at_ r_cx)) by demo_rhold.
  assert (HK : holds Debug r_kernel (mkShape 2 1 1) (at_ r_kernel)) by demo_rhold.
  pose proof (Hh 0%N r_kernel eq_refl) as Hk.
  assert (C : conv_ok (mkShape 3 1 1) (mkShape 2 1 1) 1 (mkShape 2 1 1) 0) by (repeat split; try reflexivity; try discriminate).
  rewrite (conv_pre_ext (mkShape 3 1 1) (mkShape 2 1 1) 1 (mkShape 2 1 1) h b x (fun _ => at_ r_kernel) (fun _ => 1) (at_ r_cx) i 0 0).
  - unfold conv_pre, conv_linear. assert (D : i = 0%N \/ i = 1%N) by lia. destruct D as [-> | ->]; cbv - [Rplus Rmult IZR Ropp]; lra.
  - reflexivity.
  - exact C.
  - exact Hi.
  - reflexivity.
  - intros a e c Hin. exact (holds_fun Debug _ _ _ _ Hk HK a e c Hin).
  - exact Hb.
  - intros p q c Hin. exact (holds_fun Debug _ _ _ _ Hx HX p q c Hin).
Qed.

Lemma r_cnet_smooth : smooth (-1000) Debug (map params_of (layers r_cnet)) r_cx.
Proof.
  rewrite r_cnet_params. cbn [smooth layer_smooth].
  assert (HX : holds Debug r_cx (mkShape 3 1 1) (at_ r_cx)) by demo_rhold.
  assert (HK : holds Debug r_kernel (mkShape 2 1 1) (at_ r_kernel)) by demo_rhold.
  split.
  - intros ks h b x Hh Hb Hx i j k (Hi & Hj & Hk). cbn [di dj dk] in *. assert (j = 0%N) by lia. assert (k = 0%N) by lia. subst.
    pose proof (holds_shape _ _ _ _ _ _ (Hh 0%N r_kernel eq_refl) HK) as S. subst ks.
    assert (B : b 0%N = 1). { pose proof (Hb 0%N _ eq_refl) as B. cbv - [IZR] in B. congruence. }
    rewrite r_conv_pre by assumption. destruct (N.eqb i 0); lra.
  - intros Z C. apply (computes_map (-1000) Debug (PConv (cv_kernels r_cv) (cv_biases r_cv) 1 (mkShape 3 1 1) (mkShape 2 1 1)) r_cx Z (at_ r_cx)) in C; [|exact HX].
    cbn [pout layer_map] in C.
    split; [|intros; split; [exact I|intros; exact I]].
    intros M n w b x Hw Hb Hx i Hi.
    assert (HW : holds Debug (fc_weights r_fc) (mkShape 2 2 1) (at_ (fc_weights r_fc))) by demo_rhold.
    assert (HB : holds Debug (fc_bias r_fc) (mkShape 2 1 1) (at_ (fc_bias r_fc))) by demo_rhold.
    pose proof (holds_shape _ _ _ _ _ _ Hw HW) as S. injection S as -> ->.
    assert (V : forall q, (q < 2)%N -> x q 0%N 0%N = if N.eqb q 0 then 6 else 9).
    { intros q Hq. rewrite (holds_fun Debug _ _ _ _ Hx C) by (repeat split; cbn; lia). unfold conv_map. rewrite r_conv_pre.
      - rewrite Rmax_right; [reflexivity|]. destruct (N.eqb q 0); lra.
      - intros k t Hk. destruct (N.to_nat k) as [|[|]] eqn:E; cbn [nth_error] in Hk; [|discriminate|discriminate]. injection Hk as <-.
        apply shaped_holds, (holds_shaped _ _ _ _ HK).
      - cbv - [IZR]. reflexivity.
      - exact HX.
      - exact Hq. }
    assert (E : fc_pre 2 w b x i = fc_pre 2 (at_ (fc_weights r_fc)) (at_ (fc_bias r_fc)) (fun q _ _ => if N.eqb q 0 then 6 else 9) i).
    { apply fc_pre_ext.
      - intros p Hp. apply (holds_fun Debug _ _ _ _ Hw HW). repeat split; cbn; lia.
      - apply (holds_fun Debug _ _ _ _ Hb HB). repeat split; cbn; lia.
      - exact V. }
    rewrite E. assert (D : i = 0%N \/ i = 1%N) by lia. clear - D.
    unfold fc_pre. change (upto 2) with [0; 1]%N. cbn [map Rsum fold_right].
    destruct D as [-> | ->]; cbv - [Rplus Rmult IZR Ropp]; lra.
Qed.



(** The same network with other weights and biases *)
Definition r_ops_with (W B : tensor R) : list (net_op R) :=
  [OAdd (LMaxPool r_mp); OAdd (LFC (mkFC W zero22 zero22 B zero2 zero2 "dense" Training)); OAdd (LSoftmax r_sm)].

Lemma r_net_with_built W B : shaped W (mkShape 2 2 1) -> shaped B (mkShape 2 1 1) -> well_built Debug (run_ops (network_new Training) (r_ops_with W B)).
Proof.
  intros HW HB. apply training_built_well. apply run_ops_training; [apply train_new|]. constructor; [split; [exact r_mp_ok|discriminate]|].
  constructor; [split; [exists 2%N, 2%N|discriminate]|constructor; [split; [exact r_sm_ok|discriminate]|constructor]].
  split; [exact HW|]. split; [exact HB|]. intros _. do 3 (split; [demo_shaped|]). demo_shaped.
Qed.

(** A forward and a backward pass of a pooling layer in f32 *)
Definition pool_step (l : mp_layer) (x g og : tensor f32) : option (list Z) :=
  match mp_forward Debug l x (tn (mp_output_shape l) (map (fun _ => 0%Z) (data g))) with
  | Done (l1, y, Ok _) => match mp_backward Debug l1 x y g og with Done (_, og', Ok _) => Some (tbits og') | _ => None end
  | _ => None
  end.
