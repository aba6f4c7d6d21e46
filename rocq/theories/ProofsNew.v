(** * Proofs for C69: constructors *)
From Coq Require Import ZifyBool ZifyNat ZifyN.
From Verif Require Import Base Arith Helper Tensor Convolution Network Spec SpecLayer SpecModes Loops TensorFacts OpsFacts.
From Verif Require Import ProofsTensor ProofsConv ProofsPool Layout LayerFacts ProofsLayer ProofsModes.
Ltac Zify.zify_post_hook ::= Z.div_mod_to_equations.

Lemma fits_tiles bm ins ks stride d0 d1 : tiles (di ins) (di ks) stride d0 -> tiles (dj ins) (dj ks) stride d1 -> d0 < W32 -> d1 < W32 ->
  does_kernel_stride_fit_image bm ins ks stride = Done true /\ get_convolution_dim_fit bm ins ks stride = Done (d0, d1).
Proof.
  intros (S & L0 & M0 & E0) (_ & L1 & M1 & E1) B0 B1. unfold does_kernel_stride_fit_image, get_convolution_dim_fit.
  rewrite !u32_sub_done by assumption. cbn [bind]. rewrite !u32_rem_done, !u32_div_done by exact S. cbn [bind]. rewrite M0, M1.
  cbn [bind N.eqb negb]. split; [reflexivity|]. rewrite !u32_add_done by lia. cbn [bind]. rewrite <- E0, <- E1. reflexivity.
Qed.

Lemma fits_tiles_inv ins ks stride d0 d1 :
  does_kernel_stride_fit_image Debug ins ks stride = Done true -> get_convolution_dim_fit Debug ins ks stride = Done (d0, d1) ->
  tiles (di ins) (di ks) stride d0 /\ tiles (dj ins) (dj ks) stride d1 /\ d0 < W32 /\ d1 < W32.
Proof.
  intros Ef Ed. unfold does_kernel_stride_fit_image in Ef. unfold get_convolution_dim_fit in Ed.
  apply bind_done in Ef. destruct Ef as (a0 & S0 & Ef). apply bind_done in Ef. destruct Ef as (m0 & M0 & Ef).
  destruct (N.eqb_spec m0 0) as [Z0|]; cbn [negb] in Ef; [|discriminate].
  apply bind_done in Ef. destruct Ef as (a1 & S1 & Ef). apply bind_done in Ef. destruct Ef as (m1 & M1 & Ef).
  destruct (N.eqb_spec m1 0) as [Z1|]; cbn [negb] in Ef; [|discriminate].
  rewrite S0 in Ed. cbn [bind] in Ed. apply bind_done in Ed. destruct Ed as (q0 & D0 & Ed). apply bind_done in Ed. destruct Ed as (f0 & A0 & Ed).
  rewrite S1 in Ed. cbn [bind] in Ed. apply bind_done in Ed. destruct Ed as (q1 & D1 & Ed). apply bind_done in Ed. destruct Ed as (f1 & A1 & Ed).
  injection Ed as -> ->. apply u32_sub_debug in S0, S1. apply u32_rem_inv in M0, M1. apply u32_div_inv in D0, D1. apply u32_add_debug in A0, A1.
  destruct S0, S1, M0, M1, D0, D1, A0, A1. subst. unfold tiles. auto 20.
Qed.

Section New.
Context {F : Type} {AR : Arith F}.
Notation T := (tensor F).

Lemma len_repeat {A} (x : A) n : len (repeat x (N.to_nat n)) = n.
Proof. unfold len. rewrite repeat_length. lia. Qed.

Lemma Forall_repeat {A} (P : A -> Prop) x n : P x -> Forall P (repeat x n).
Proof. intros H. induction n; simpl; constructor; auto. Qed.

Lemma cv_new_accepts bm ks ins stride depth name d0 d1 : allocatable ks -> 0 < depth -> depth < W32 ->
  tiles (di ins) (di ks) stride d0 -> tiles (dj ins) (dj ks) stride d1 -> d0 < W32 -> d1 < W32 ->
  exists l : conv_layer F, cv_new bm ks ins stride depth name = Done (Ok l)
    /\ cv_input_shape l = ins /\ cv_output_shape l = mkShape d0 d1 depth /\ cv_stride l = stride /\ cv_name l = name
    /\ len (cv_kernels l) = depth /\ Forall (fun k => zeros bm k ks) (cv_kernels l)
    /\ len (cv_biases l) = depth /\ Forall (fun b => zeros bm b (mkShape 1 1 1)) (cv_biases l)
    /\ idle bm (LConv l)
    /\ (dk ks = dk ins -> allocatable ins -> allocatable (mkShape d0 d1 depth) -> conv_layer_ok ks l).
Proof.
  intros A D0 D1 T0 T1 B0 B1. destruct (fits_tiles bm ins ks stride d0 d1 T0 T1 B0 B1) as (Ef & Ed).
  unfold cv_new, cv_empty. rewrite tensor_empty_done. cbn [bind]. rewrite tensor_new_done by exact A. cbn [bind].
  rewrite tensor_new_done by apply allocatable_111. cbn [bind].
  set (z := of_fun ks (fun _ _ _ => fzero)). set (b := of_fun (shape_1d 1) (fun _ _ _ => fzero)).
  assert (Lk : len (repeat z (N.to_nat depth)) = depth) by apply len_repeat.
  assert (Lb : len (repeat b (N.to_nat depth)) = depth) by apply len_repeat.
  assert (Zk : Forall (fun k => zeros bm k ks) (repeat z (N.to_nat depth))) by (apply Forall_repeat, zeros_of_fun; exact A).
  assert (Zb : Forall (fun k => zeros bm k (mkShape 1 1 1)) (repeat b (N.to_nat depth))) by (apply Forall_repeat, zeros_of_fun, allocatable_111).
  assert (E : exists l : conv_layer F, cv_fill_from_state bm (mkConv [] [] [] [] 1 (of_fun (mkShape 1 1 1) (fun _ _ _ => fzero)) (mkShape 1 1 1) (mkShape 1 1 1)
      "Empty convolutional layer" Inference) (repeat z (N.to_nat depth)) (repeat b (N.to_nat depth)) ins stride name = Done (l, Ok tt)
      /\ l = mkConv (repeat z (N.to_nat depth)) (repeat b (N.to_nat depth)) [] [] stride (of_fun (mkShape 1 1 1) (fun _ _ _ => fzero)) ins (mkShape d0 d1 depth) name Inference).
  { unfold cv_fill_from_state. destruct (repeat z (N.to_nat depth)) as [|k0 kr] eqn:R; [unfold len in Lk; simpl in Lk; lia|].
    assert (K0 : k0 = z). { destruct (N.to_nat depth); simpl in R; [discriminate|]. injection R as <- _. reflexivity. }
    replace (get_shape k0) with ks by (rewrite K0; reflexivity).
    assert (Q : forallb (fun k => shape_eqb (get_shape k) ks) (k0 :: kr) = true).
    { rewrite <- R. apply forallb_forall. intros k Hk. apply repeat_spec in Hk. subst k. unfold shape_eqb, get_shape, z. cbn [tshape of_fun].
      rewrite !N.eqb_refl. reflexivity. }
    rewrite Q. cbn [negb]. rewrite Ef. cbn [bind negb]. rewrite Ed. cbn [bind cv_kernel_gradients cv_bias_gradients cv_relu_mask cv_run_state].
    rewrite Lk. unfold as_u32. rewrite N.mod_small by exact D1. eexists. split; reflexivity. }
  destruct E as (l & E & El). rewrite E. cbn [bind]. exists l. split; [reflexivity|].
  assert (Sk : Forall (fun k => shaped k ks) (repeat z (N.to_nat depth))).
  { eapply Forall_impl; [|exact Zk]. intros k H. eapply holds_shaped, H. }
  assert (Sb : Forall (fun k : T => wf k /\ at_most_one (tshape k)) (repeat b (N.to_nat depth))).
  { eapply Forall_impl; [|exact Zb]. intros k (W & S & _). rewrite S. split; [exact W|]. repeat split; reflexivity. }
  pose proof (cv_fill_ok bm _ l _ _ ins stride name ks E Sk Sb) as O.
  rewrite Lk, Lb in O. subst l. cbn [cv_input_shape cv_output_shape cv_stride cv_name cv_kernels cv_biases] in *.
  do 4 (split; [reflexivity|]). do 4 (split; [assumption|]). split.
  { split; [reflexivity|]. cbn. repeat split; try reflexivity; apply zeros_of_fun, allocatable_111. }
  intros Dk Ai Ao. apply O; try assumption; try reflexivity; try lia.
  - right. split; [apply T0|apply T1].
  - intros (X1 & X2 & X3). destruct T0 as (_ & _ & _ & Y). rewrite X1, X2, X3 in Y. rewrite N.sub_0_r, N.div_1_r in Y. lia.
  - intros (X1 & X2 & X3). destruct T1 as (_ & _ & _ & Y). rewrite X1, X2, X3 in Y. rewrite N.sub_0_r, N.div_1_r in Y. lia.
Qed.

Lemma cv_new_accepted ks ins stride depth name (l : conv_layer F) : cv_new Debug ks ins stride depth name = Done (Ok l) ->
  0 < depth /\ exists d0 d1, tiles (di ins) (di ks) stride d0 /\ tiles (dj ins) (dj ks) stride d1 /\ d0 < W32 /\ d1 < W32.
Proof.
  unfold cv_new. intros H. res_inv. destruct x2 as [l' [[]|e]]; [|discriminate].
  assert (S : get_shape x0 = ks) by (unfold tensor_new in E0; res_inv; reflexivity).
  unfold cv_fill_from_state in E2. destruct (repeat x0 (N.to_nat depth)) as [|k0 kr] eqn:R; [discriminate|].
  assert (Z : 0 < depth) by (destruct depth; [discriminate R|lia]). split; [exact Z|].
  assert (K0 : k0 = x0). { destruct (N.to_nat depth); simpl in R; [discriminate|]. injection R as <- _. reflexivity. }
  subst k0. rewrite S in E2. destruct (negb (forallb _ _)); [discriminate|]. apply bind_done in E2. destruct E2 as (fits & Ef & E2).
  destruct fits; cbn [negb] in E2; [|discriminate]. apply bind_done in E2. destruct E2 as ((d0 & d1) & Ed & _). exists d0, d1.
  apply fits_tiles_inv; assumption.
Qed.

Lemma cv_new_exact ks ins stride depth name : allocatable ks -> depth < W32 ->
  ((exists l : conv_layer F, cv_new Debug ks ins stride depth name = Done (Ok l)) <->
   0 < depth /\ exists d0 d1, tiles (di ins) (di ks) stride d0 /\ tiles (dj ins) (dj ks) stride d1 /\ d0 < W32 /\ d1 < W32).
Proof.
  intros A B. split.
  - intros (l & E). eapply cv_new_accepted. exact E.
  - intros (D & d0 & d1 & T0 & T1 & B0 & B1). destruct (cv_new_accepts Debug ks ins stride depth name d0 d1 A D B T0 T1 B0 B1) as (l & E & _). eauto.
Qed.

Lemma mp_new_accepts bm mask ins stride name d0 d1 :
  tiles (di ins) (di mask) stride d0 -> tiles (dj ins) (dj mask) stride d1 -> d0 < W32 -> d1 < W32 ->
  exists l, mp_new bm mask ins stride name = Done (Ok l)
    /\ mp_input_shape l = ins /\ mp_mask_shape l = mask /\ mp_output_shape l = mkShape d0 d1 (dk ins) /\ mp_stride l = stride /\ mp_name l = name
    /\ idle (F:=F) bm (LMaxPool l) /\ (allocatable ins -> allocatable (mkShape d0 d1 (dk ins)) -> mp_ok l).
Proof.
  intros T0 T1 B0 B1. destruct (fits_tiles bm ins mask stride d0 d1 T0 T1 B0 B1) as (Ef & Ed).
  unfold mp_new, mp_fill_from_state. rewrite Ef. cbn [bind negb]. rewrite Ed. cbn [bind mp_run_state mp_origin mp_empty]. eexists. split; [reflexivity|].
  cbn. do 5 (split; [reflexivity|]). split; [split; reflexivity|]. intros Ai Ao. split; [exact Ai|]. split; [exact Ao|]. split; [|cbn; discriminate].
  split; [reflexivity|]. split; assumption.
Qed.

Lemma mp_new_exact mask ins stride name :
  (exists l, mp_new Debug mask ins stride name = Done (Ok l)) <->
  exists d0 d1, tiles (di ins) (di mask) stride d0 /\ tiles (dj ins) (dj mask) stride d1 /\ d0 < W32 /\ d1 < W32.
Proof.
  split.
  - intros (l & E). unfold mp_new in E. apply bind_done in E. destruct E as ([l' [[]|e]] & E & H); [|discriminate]. unfold mp_fill_from_state in E.
    apply bind_done in E. destruct E as (fits & Ef & E). destruct fits; cbn [negb] in E; [|discriminate].
    apply bind_done in E. destruct E as ((d0 & d1) & Ed & _). exists d0, d1. apply fits_tiles_inv; assumption.
  - intros (d0 & d1 & T0 & T1 & B0 & B1). destruct (mp_new_accepts Debug mask ins stride name d0 d1 T0 T1 B0 B1) as (l & E & _). eauto.
Qed.

Lemma sm_new_accepts bm s name :
  exists l : sm_layer F, sm_new bm s name = Done (Ok l) /\ sm_shape l = s /\ sm_name l = name /\ idle bm (LSoftmax l) /\ (allocatable s -> sm_ok l).
Proof.
  unfold sm_new, sm_empty, sm_fill_from_state, sm_update. rewrite !tensor_empty_done. cbn [bind sm_run_state].
  eexists. split; [reflexivity|]. cbn. do 2 (split; [reflexivity|]). split.
  - split; [reflexivity|]. cbn. split; apply zeros_of_fun, allocatable_111.
  - intros A. split; [exact A|]. cbn. discriminate.
Qed.

Lemma fc_fill_values bm m n (l : fc_layer F) v : fc_ok m n l ->
  (fc_ok m n (fc_fill_weights l v) /\ holds bm (fc_weights (fc_fill_weights l v)) (mkShape m n 1) (fun _ _ _ => v)
     /\ fc_bias (fc_fill_weights l v) = fc_bias l /\ fc_name (fc_fill_weights l v) = fc_name l /\ fc_run_state (fc_fill_weights l v) = fc_run_state l)
  /\ (fc_ok m n (fc_fill_bias l v) /\ holds bm (fc_bias (fc_fill_bias l v)) (mkShape m 1 1) (fun _ _ _ => v)
     /\ fc_weights (fc_fill_bias l v) = fc_weights l /\ fc_name (fc_fill_bias l v) = fc_name l /\ fc_run_state (fc_fill_bias l v) = fc_run_state l).
Proof.
  intros (Hw & Hb & Ht). pose proof (shaped_eq _ _ Hw) as (Aw & Ew). pose proof (shaped_eq _ _ Hb) as (Ab & Eb).
  unfold fc_fill_weights, fc_fill_bias, fc_ok. cbn. rewrite Ew, Eb, !fill_with_value_of_fun. rewrite <- Ew, <- Eb.
  split; (split; [|split; [apply holds_of_fun; assumption|auto]]).
  - split; [apply shaped_of_fun; exact Aw|]. auto.
  - split; [exact Hw|]. split; [apply shaped_of_fun; exact Ab|exact Ht].
Qed.

End New.
