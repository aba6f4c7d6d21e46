(** * Concrete networks for C101 *)
From Coq Require Import Reals Lra ZifyBool ZifyNat ZifyN.
From Flocq Require Import Core IEEE754.Binary.
From Verif Require Import Base Arith Helper Tensor Network Bincode Serial Float32 Float32Facts Spec SpecLayer SpecNet SpecReal SpecError SpecScale Loops TensorFacts LayerFacts NetFacts FloatScale ProofsNetError Demo DemoNet.
Local Open Scope string_scope.

(** Zero, or of magnitude at least 2^-63. *)
Definition tame (x : f32) : bool := match x with B754_zero _ _ _ => true | B754_finite _ _ _ _ ex _ => (-63 <=? ex)%Z | _ => false end.

Lemma tame_real x : tame x = true -> (real x = 0 \/ bpow radix2 (-63) <= Rabs (real x))%R.
Proof.
  destruct x as [s|s|s p Hp|s m ex Hb]; try discriminate; [left; reflexivity|]. intros H. right. cbn [tame] in H. change (real (B754_finite 24 128 s m ex Hb)) with (F2R (Float radix2 (SpecFloat.cond_Zopp s (Z.pos m)) ex)).
  rewrite <- F2R_Zabs, abs_cond_Zopp. unfold F2R. cbn [Fnum Fexp]. apply Rle_trans with (1 * bpow radix2 ex)%R; [rewrite Rmult_1_l; apply bpow_le; lia|].
  apply Rmult_le_compat_r; [apply bpow_ge_0|]. apply IZR_le. lia.
Qed.

Lemma tame_normal x y : tame x = true -> tame y = true -> normal_product x y.
Proof.
  intros Hx Hy. apply tame_real in Hx, Hy. unfold normal_product. rewrite pow2. destruct Hx as [->|Hx]; [left; ring|]. destruct Hy as [->|Hy]; [left; ring|]. right.
  rewrite Rabs_mult. change (-126)%Z with (-63 + -63)%Z. rewrite bpow_plus. apply Rmult_le_compat; try assumption; apply bpow_ge_0.
Qed.

Definition scaledb (k : Z) (x x' : f32) : bool :=
  match x, x' with
  | B754_zero _ _ s, B754_zero _ _ s' => Bool.eqb s s'
  | B754_finite _ _ s m ex _, B754_finite _ _ s' m' ex' _ => Bool.eqb s s' && Pos.eqb m m' && Z.eqb ex' (ex + k)
  | _, _ => false
  end.

Lemma scaledb_scaled k x x' : scaledb k x x' = true -> scaled k x x'.
Proof.
  unfold scaled. rewrite pow2. destruct x as [s|s|s p Hp|s m ex Hb], x' as [s'|s'|s' p' Hp'|s' m' ex' Hb']; try discriminate; cbn [scaledb]; intros H.
  - apply Bool.eqb_prop in H. subst. repeat split; try reflexivity. cbn. ring.
  - rewrite !andb_true_iff in H. destruct H as ((H1 & H2) & H3). apply Bool.eqb_prop in H1. apply Pos.eqb_eq in H2. apply Z.eqb_eq in H3. subst.
    repeat split; try reflexivity. change real with (B2R 24 128). unfold B2R, F2R. cbn [Fnum Fexp]. rewrite bpow_plus. ring.
Qed.

Definition all_cells (s : shape) (P : N -> N -> N -> bool) : bool := forallb (fun '(i, j, k) => P i j k) (cells s).
Lemma all_cells_in s P : all_cells s P = true -> forall i j k, in_shape s i j k -> P i j k = true.
Proof. intros H i j k Hin. unfold all_cells in H. rewrite forallb_forall in H. apply (H (i, j, k)). apply in_cells. exact Hin. Qed.

Section Range.
Context (bm : build).

Lemma scaled_check k t t' : wfb t = true -> wfb t' = true -> tshape t' = tshape t -> all_cells (tshape t) (fun i j c => scaledb k (at_ t i j c) (at_ t' i j c)) = true -> scaled_tensor bm k t t'.
Proof.
  intros H H' E C. exists (tshape t), (at_ t), (at_ t'). split; [apply demo_holds, H|]. split; [rewrite <- E; apply demo_holds, H'|].
  intros i j c Hin. apply scaledb_scaled. exact (all_cells_in _ _ C i j c Hin).
Qed.

Lemma fc_range wt bt X m n w b x : holds bm wt (mkShape m n 1) w -> holds bm bt (mkShape m 1 1) b -> holds bm X (mkShape n 1 1) x ->
  all_cells (mkShape m n 1) (fun i q _ => tame (w i q 0) && tame (x q 0 0)) = true ->
  all_cells (mkShape m 1 1) (fun i _ _ => fin (fadd (sum (map (fun q => fmul (w i q 0) (x q 0 0)) (upto n))) (b i 0 0))) = true ->
  layer_in_range bm (PFC wt bt) X.
Proof.
  intros Hw Hb Hx T F m' n' w' b' x' Hw' Hb' Hx' i Hi.
  pose proof (holds_shape _ _ _ _ _ _ Hw Hw') as E. injection E as <- <-.
  pose proof (holds_fun _ _ _ _ _ Hw' Hw) as Q1. pose proof (holds_fun _ _ _ _ _ Hb' Hb) as Q2. pose proof (holds_fun _ _ _ _ _ Hx' Hx) as Q3. split.
  - intros q Hq. rewrite Q1, Q3 by (repeat split; cbn [di dj dk]; lia).
    pose proof (all_cells_in _ _ T i q 0%N ltac:(repeat split; cbn [di dj dk]; lia)) as H. cbv beta in H. apply andb_true_iff in H. apply tame_normal; apply H.
  - rewrite Q2 by (repeat split; cbn [di dj dk]; lia). rewrite (map_ext_in _ (fun q => fmul (w i q 0%N) (x q 0%N 0%N))).
    + apply (all_cells_in _ _ F i 0%N 0%N). repeat split; cbn [di dj dk]; lia.
    + intros q Hq. apply in_upto in Hq. rewrite Q1, Q3 by (repeat split; cbn [di dj dk]; lia). reflexivity.
Qed.

Lemma conv_range kt bt st ins outs X ks h b x : all_hold bm kt ks h -> dk outs = len kt ->
  (forall n t, nth_error bt (N.to_nat n) = Some t -> get_item bm t (mkIndex 0 0 0) = Done (b n)) -> dk outs <= len bt -> holds bm X ins x ->
  (forall ch, ch < dk outs -> conv_ok ins ks st outs ch) ->
  all_cells outs (fun i j k => all_cells ks (fun a e c => tame (x (i * st + a) (j * st + e) c) && tame (h k a e c))) = true ->
  all_cells outs (fun i j k => fin (fadd (sum (window_products ks st x (h k) i j)) (b k))) = true ->
  layer_in_range bm (PConv kt bt st ins outs) X.
Proof.
  intros Hk L Hb L2 Hx Hc T F ks' h' b' x' Hk' Hb' Hx' i j k Hin. pose proof Hin as (Hi & Hj & Hkk).
  destruct (nth_error kt (N.to_nat k)) as [tk|] eqn:Nk; [|apply nth_error_None in Nk; unfold len in L; lia].
  destruct (nth_error bt (N.to_nat k)) as [tb|] eqn:Nb; [|apply nth_error_None in Nb; unfold len in L2; lia].
  pose proof (holds_shape _ _ _ _ _ _ (Hk k tk Nk) (Hk' k tk Nk)) as <-. pose proof (holds_fun _ _ _ _ _ (Hk' k tk Nk) (Hk k tk Nk)) as Q1.
  pose proof (Hb' k tb Nb) as Q2. rewrite (Hb k tb Nb) in Q2. injection Q2 as Q2. pose proof (holds_fun _ _ _ _ _ Hx' Hx) as Q3.
  assert (Pos : forall p q r, in_shape ks p q r -> in_shape ins (i * st + p) (j * st + q) r) by (intros p q r Hpq; apply (conv_inside _ _ _ _ _ _ _ _ _ _ (Hc k Hkk) Hi Hj Hpq)).
  split.
  - intros p q r Hpq. rewrite Q1, Q3 by auto. pose proof (all_cells_in _ _ (all_cells_in _ _ T i j k Hin) p q r Hpq) as H. cbv beta in H. apply andb_true_iff in H. apply tame_normal; apply H.
  - rewrite <- Q2. unfold window_products. rewrite (map_ext_in _ (fun '(p, q, r) => fmul (x (i * st + p)%N (j * st + q)%N r) (h k p q r))).
    + apply (all_cells_in _ _ F i j k Hin).
    + intros ((p & q) & r) Hpq. apply in_cells in Hpq. rewrite Q1, Q3 by auto. reflexivity.
Qed.
End Range.

(** A 2x2 convolution of a 4x2 image in front of a fully connected layer. *)
Definition z_kernel (k : list Z) : tensor f32 := tn (mkShape 2 2 1) k.
Definition z_one (b : Z) : tensor f32 := tn (mkShape 1 1 1) [b].
Definition z_cv (k : list Z) (b : Z) : layer f32 :=
  LConv (mkConv [z_kernel k] [z_one b] [] [] 2 dot (mkShape 4 2 1) (mkShape 2 1 1) "conv" Inference).
Definition z_fc (w b : list Z) : layer f32 := LFC (mkFC (tn (mkShape 2 2 1) w) dot dot (tn (mkShape 2 1 1) b) dot dot "dense" Inference).
Definition z_ops (k : list Z) (c : Z) (w b : list Z) : list (net_op f32) := [OAdd (z_cv k c); OAdd (z_fc w b)].

Lemma z_cv_ok k b : wfb (z_kernel k) = true -> layer_ok (z_cv k b).
Proof.
  intros H. exists (mkShape 2 2 1). split; [repeat split; reflexivity|]. split; [repeat constructor; try reflexivity; apply wfb_wf; exact H|].
  split; [reflexivity|]. split; [vm_compute; discriminate|]. split; [repeat constructor; try reflexivity; try (vm_compute; discriminate); apply wfb_wf; reflexivity|].
  split; [repeat split; reflexivity|]. split; [repeat split; reflexivity|]. split; [|discriminate]. intros ch Hc. cbn in Hc. repeat split; try reflexivity; try discriminate. exact Hc.
Qed.

Lemma z_fc_ok w b : wfb (tn (mkShape 2 2 1) w) = true -> wfb (tn (mkShape 2 1 1) b) = true -> layer_ok (z_fc w b).
Proof. intros H H'. exists 2, 2. split; [split; [apply wfb_wf, H|reflexivity]|]. split; [split; [apply wfb_wf, H'|reflexivity]|discriminate]. Qed.

Lemma z_built k c w b : wfb (z_kernel k) = true -> wfb (tn (mkShape 2 2 1) w) = true -> wfb (tn (mkShape 2 1 1) b) = true ->
  exists n, run_all Debug (network_new Inference) (z_ops k c w b) = Some n /\ well_built Debug n /\ layers n <> [] /\ net_input_shape n = mkShape 4 2 1
    /\ map params_of (layers n) = [PConv [z_kernel k] [z_one c] 2 (mkShape 4 2 1) (mkShape 2 1 1); PFC (tn (mkShape 2 2 1) w) (tn (mkShape 2 1 1) b)].
Proof.
  intros H1 H2 H3. destruct (run_all Debug (network_new Inference) (z_ops k c w b)) as [n|] eqn:E; [|discriminate E].
  exists n. split; [reflexivity|]. split.
  { refine (run_all_built _ _ _ _ (built_new _ _) _ E). constructor; [exact (z_cv_ok k c H1)|constructor; [exact (z_fc_ok w b H2 H3)|constructor]]. }
  injection E as <-. split; [discriminate|]. split; reflexivity.
Qed.

(** What the convolution computes. *)
Definition z_mid (k : list Z) (c : Z) (X : tensor f32) : tensor f32 :=
  mkTensor (mkStride 1 2 2) (mkShape 2 1 1)
    (map (fun i => Spec.relu (fadd (sum (window_products (mkShape 2 2 1) 2 (at_ X) (at_ (z_kernel k)) i 0)) (at_ (z_one c) 0 0 0))) [0; 1]).

Lemma z_range k c w b X : wfb (z_kernel k) = true -> wfb (tn (mkShape 2 2 1) w) = true -> wfb (tn (mkShape 2 1 1) b) = true -> wfb X = true -> tshape X = mkShape 4 2 1 ->
  all_cells (mkShape 2 1 1) (fun i j l => all_cells (mkShape 2 2 1) (fun a e r => tame (at_ X (i * 2 + a) (j * 2 + e) r) && tame (at_ (z_kernel k) a e r))) = true ->
  all_cells (mkShape 2 1 1) (fun i j l => fin (fadd (sum (window_products (mkShape 2 2 1) 2 (at_ X) (at_ (z_kernel k)) i j)) (at_ (z_one c) 0 0 0))) = true ->
  all_cells (mkShape 2 2 1) (fun i q _ => tame (at_ (tn (mkShape 2 2 1) w) i q 0) && tame (at_ (z_mid k c X) q 0 0)) = true ->
  all_cells (mkShape 2 1 1) (fun i _ _ => fin (fadd (sum (map (fun q => fmul (at_ (tn (mkShape 2 2 1) w) i q 0) (at_ (z_mid k c X) q 0 0)) (upto 2))) (at_ (tn (mkShape 2 1 1) b) i 0 0))) = true ->
  in_range Debug [PConv [z_kernel k] [z_one c] 2 (mkShape 4 2 1) (mkShape 2 1 1); PFC (tn (mkShape 2 2 1) w) (tn (mkShape 2 1 1) b)] X.
Proof.
  intros H1 H2 H3 HX SX T1 F1 T2 F2.
  assert (AH : all_hold Debug [z_kernel k] (mkShape 2 2 1) (fun _ => at_ (z_kernel k))).
  { intros n t Hn. destruct (N.to_nat n) as [|[|m]]; cbn in Hn; try discriminate. injection Hn as <-. apply (demo_holds Debug (z_kernel k) H1). }
  assert (AB : forall n t, nth_error [z_one c] (N.to_nat n) = Some t -> get_item Debug t (mkIndex 0 0 0) = Done (at_ (z_one c) 0 0 0)).
  { intros n t Hn. destruct (N.to_nat n) as [|[|m]]; cbn in Hn; try discriminate. injection Hn as <-. reflexivity. }
  pose proof (demo_holds Debug X HX) as Hx. rewrite SX in Hx.
  assert (CO : forall ch, ch < 1 -> conv_ok (mkShape 4 2 1) (mkShape 2 2 1) 2 (mkShape 2 1 1) ch) by (intros ch Hc; repeat split; try reflexivity; try discriminate; exact Hc).
  assert (W : wfb (z_mid k c X) = true) by reflexivity.
  split; [apply (conv_range Debug _ _ _ _ (mkShape 2 1 1) _ _ _ (fun _ => at_ (z_one c) 0 0 0) (at_ X) AH eq_refl AB); [cbn; lia|exact Hx|exact CO|exact T1|exact F1]|].
  intros Z C. assert (Z = z_mid k c X) as ->.
  { refine (computes_fun _ _ _ _ _ C _). apply (CConv Debug [z_kernel k] [z_one c] 2 (mkShape 4 2 1) (mkShape 2 1 1) (mkShape 2 2 1) (fun _ => at_ (z_kernel k)) (fun _ => at_ (z_one c) 0 0 0) X (at_ X) (z_mid k c X) AH eq_refl); [cbn; lia|exact AB|exact CO|exact Hx|].
    refine (holds_ext _ _ _ _ _ _ (demo_holds Debug _ W)). intros i j l (Hi & Hj & Hl). cbn [tshape z_mid di dj dk] in Hi, Hj, Hl.
    assert (j = 0) as -> by lia. assert (l = 0) as -> by lia. assert (i = 0 \/ i = 1) as [->| ->] by lia; reflexivity. }
  split; [|exact (fun _ _ => I)]. exact (fc_range Debug _ _ _ _ _ _ _ _ (demo_holds Debug _ H2) (demo_holds Debug _ H3) (demo_holds Debug _ W) T2 F2).
Qed.

(** Parameters and images; the second network is the first one with its image multiplied by 2 and its hidden values by 8, the third one only has its hidden
    values multiplied by 8. *)
Definition z_k1 := [16777215; 3; -1; 5]%Z.
Definition z_w1 := [8; -16; 24; 32]%Z.
Definition z_b1 := [1; -1]%Z.
Definition z_image (m : Z) : tensor f32 := tn (mkShape 4 2 1) (map (Z.mul m) [3; 1; 2; -4; 5; 2; -7; -6]%Z).

Lemma z_scaled : scaled_layers Debug 1 2 [PConv [z_kernel z_k1] [z_one 7] 2 (mkShape 4 2 1) (mkShape 2 1 1); PFC (tn (mkShape 2 2 1) z_w1) (tn (mkShape 2 1 1) z_b1)]
    [PConv [z_kernel (map (Z.mul 4) z_k1)] [z_one 56] 2 (mkShape 4 2 1) (mkShape 2 1 1); PFC (tn (mkShape 2 2 1) [4; -8; 12; 16]%Z) (tn (mkShape 2 1 1) [4; -4]%Z)]
  /\ scaled_layers Debug 0 0 [PConv [z_kernel z_k1] [z_one 7] 2 (mkShape 4 2 1) (mkShape 2 1 1); PFC (tn (mkShape 2 2 1) z_w1) (tn (mkShape 2 1 1) z_b1)]
    [PConv [z_kernel (map (Z.mul 8) z_k1)] [z_one 56] 2 (mkShape 4 2 1) (mkShape 2 1 1); PFC (tn (mkShape 2 2 1) [1; -2; 3; 4]%Z) (tn (mkShape 2 1 1) z_b1)].
Proof.
  assert (B : forall a b, scaledb 3 (f32_of_Z a) (f32_of_Z b) = true -> scaled_bias Debug 3 (z_one a) (z_one b)).
  { intros a b H. exists (f32_of_Z a), (f32_of_Z b). split; [reflexivity|]. split; [reflexivity|]. apply scaledb_scaled, H. }
  split; (apply (scaled_one _ _ 3); [split; [reflexivity|]; split; [reflexivity|]; split; [reflexivity|]; split; [constructor; [|constructor]; apply scaled_check; reflexivity|constructor; [apply B; reflexivity|constructor]]
    |eapply scaled_one; [|apply scaled_none]; split; apply scaled_check; reflexivity]).
Qed.
