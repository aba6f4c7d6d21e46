(** * C66: proofs *)
From Coq Require Import Reals Lra ZifyBool ZifyNat ZifyN.
From Flocq Require Import Core.
From Verif Require Import Base Arith Helper Tensor Network Bincode Serial Spec SpecLayer SpecNet SpecReal SpecTrain Loops TensorFacts OpsFacts ProofsTensor LayerFacts NetFacts NetRun ProofsNet.
From Verif Require Import Float32 Float32Facts RealArith RealSums SpecError FloatError ProofsFloat ProofsGrad SpecNetError ProofsNetError SpecGain.
Local Open Scope R_scope.

(** ** Softmax moves by at most half the change of its input *)

(** A probability [b] whose odds change by at most the factor [q * q]. *)
Lemma odds_change a b q : 1 <= q -> 0 <= b <= 1 -> a <= q * q * b / (q * q * b + (1 - b)) -> a - b <= (q - 1) / (q + 1).
Proof.
  intros Hq Hb Ha. assert (P : 0 < q * q * b + (1 - b)).
  { assert (1 <= q * q) by (replace 1 with (1 * 1) by ring; apply Rmult_le_compat; lra).
    assert (b <= q * q * b) by (rewrite <- (Rmult_1_l b) at 1; apply Rmult_le_compat_r; lra). lra. }
  apply Rle_trans with (q * q * b / (q * q * b + (1 - b)) - b); [lra|].
  apply Rmult_le_reg_r with (q * q * b + (1 - b)); [exact P|]. apply Rmult_le_reg_r with (q + 1); [lra|].
  replace ((q * q * b / (q * q * b + (1 - b)) - b) * (q * q * b + (1 - b)) * (q + 1)) with ((q - 1) * (b * (1 - b) * (q + 1) * (q + 1))) by (field; lra).
  replace ((q - 1) / (q + 1) * (q * q * b + (1 - b)) * (q + 1)) with ((q - 1) * (q * q * b + (1 - b))) by (field; lra).
  apply Rmult_le_compat_l; [lra|]. assert (S : 0 <= (q * b - (1 - b)) * (q * b - (1 - b))) by apply Rle_0_sqr. lra.
Qed.

Lemma half_tanh d : 0 <= d -> (exp d - 1) / (exp d + 1) <= d / 2.
Proof.
  intros Hd. pose proof (exp_pos d) as P.
  assert (K : 0 <= d * (exp d + 1) - 2 * (exp d - 1)).
  { destruct Hd as [Hd| <-]; [|rewrite exp_0; lra].
    set (f := fun t => t * (exp t + 1) - 2 * (exp t - 1)). set (f' := fun t => 1 + (t - 1) * exp t).
    assert (D : forall t, derivable_pt_lim f t (f' t)).
    { intros t. unfold f, f'. assert (De : derivable_pt_lim exp t (exp t)) by apply derivable_pt_lim_exp.
      eapply deriv_eq; [|apply deriv_ext with (fun t => t * (exp t + 1) + (-2) * (exp t + (-1))); [intros; ring|]].
      2: { apply deriv_plus; [apply deriv_mult; [apply derivable_pt_lim_id|]|apply deriv_scale]; (apply deriv_plus; [exact De|apply deriv_const]). }
      cbv beta. ring. }
    destruct (MVT_cor2 f f' 0 d Hd (fun t _ => D t)) as (c & E & Hc).
    assert (F0 : f 0 = 0) by (unfold f; rewrite exp_0; ring). change (0 <= f d). rewrite F0 in E.
    replace (f d) with (f' c * d) by lra. apply Rmult_le_pos; [|lra]. unfold f'.
    pose proof (exp_ineq1_le (- c)) as Q. rewrite exp_Ropp in Q. pose proof (exp_pos c) as Pc.
    apply Rmult_le_compat_r with (r := exp c) in Q; [|lra]. rewrite Rinv_l in Q by lra. lra. }
  apply Rmult_le_reg_r with (exp d + 1); [lra|]. unfold Rdiv at 1. rewrite Rmult_assoc, Rinv_l by lra. lra.
Qed.

Lemma softmax_step {A} (l : list A) (f g : A -> R) d a : 0 <= d -> In a l -> (forall c, In c l -> Rabs (f c - g c) <= d) ->
  exp (f a) / Rsum (map (fun c => exp (f c)) l) - exp (g a) / Rsum (map (fun c => exp (g c)) l) <= d / 2.
Proof.
  intros Hd Ha H. set (S := Rsum (map (fun c => exp (f c)) l)). set (T := Rsum (map (fun c => exp (g c)) l)).
  assert (Ne : l <> []) by (intros ->; destruct Ha).
  assert (PS : 0 < S) by (apply Rsum_pos; [exact Ne|intros; apply exp_pos]). assert (PT : 0 < T) by (apply Rsum_pos; [exact Ne|intros; apply exp_pos]).
  apply Rle_trans with ((exp d - 1) / (exp d + 1)); [|apply half_tanh; exact Hd].
  assert (Q1 : 1 <= exp d) by (rewrite <- exp_0; apply exp_mono; exact Hd).
  destruct (in_split a l Ha) as (l1 & l2 & El).
  assert (ES : S = exp (f a) + Rsum (map (fun c => exp (f c)) (l1 ++ l2))).
  { unfold S. rewrite El, !map_app, !Rsum_app. cbn [map]. rewrite Rsum_cons. ring. }
  assert (ET : T = exp (g a) + Rsum (map (fun c => exp (g c)) (l1 ++ l2))).
  { unfold T. rewrite El, !map_app, !Rsum_app. cbn [map]. rewrite Rsum_cons. ring. }
  assert (In' : forall c, In c (l1 ++ l2) -> In c l).
  { intros c Hc. rewrite El. apply in_app_iff in Hc. apply in_app_iff. destruct Hc; [left|right; right]; assumption. }
  set (So := Rsum (map (fun c => exp (f c)) (l1 ++ l2))) in *. set (To := Rsum (map (fun c => exp (g c)) (l1 ++ l2))) in *.
  assert (P1 : 0 <= So) by (apply Rsum_nonneg; intros; left; apply exp_pos). assert (P2 : 0 <= To) by (apply Rsum_nonneg; intros; left; apply exp_pos).
  assert (Up : exp (f a) <= exp d * exp (g a)).
  { rewrite <- exp_plus. apply exp_mono. pose proof (H a Ha) as Q. apply Rabs_le_inv in Q. lra. }
  assert (Dn : To <= exp d * So).
  { unfold To, So. rewrite <- Rsum_scale. apply Rsum_le. intros c Hc. rewrite <- exp_plus. apply exp_mono. pose proof (H c (In' c Hc)) as Q. apply Rabs_le_inv in Q. lra. }
  pose proof (exp_pos (f a)) as Pf. pose proof (exp_pos (g a)) as Pg. set (q := exp d) in *.
  apply odds_change; [exact Q1| |].
  - split; [apply Rmult_le_pos; [lra|left; apply Rinv_0_lt_compat; exact PT]|]. apply Rmult_le_reg_r with T; [exact PT|].
    unfold Rdiv. rewrite Rmult_assoc, Rinv_l by lra. lra.
  - assert (Pq : 0 < q * q) by (apply Rmult_lt_0_compat; lra).
    assert (Den : 0 < q * q * exp (g a) + To) by (pose proof (Rmult_lt_0_compat _ _ Pq Pg); lra).
    replace (q * q * (exp (g a) / T) / (q * q * (exp (g a) / T) + (1 - exp (g a) / T))) with (q * q * exp (g a) / (q * q * exp (g a) + To)).
    2: { rewrite ET. field. rewrite <- ET. repeat split; try lra. }
    apply Rmult_le_reg_r with S; [exact PS|]. apply Rmult_le_reg_r with (q * q * exp (g a) + To); [exact Den|].
    replace (exp (f a) / S * S * (q * q * exp (g a) + To)) with (exp (f a) * (q * q * exp (g a)) + exp (f a) * To) by (field; lra).
    replace (q * q * exp (g a) / (q * q * exp (g a) + To) * S * (q * q * exp (g a) + To)) with (q * q * exp (g a) * S) by (field; lra).
    rewrite ES. assert (exp (f a) * To <= q * exp (g a) * (q * So)) by (apply Rmult_le_compat; lra). lra.
Qed.

Lemma softmax_lipschitz {A} (l : list A) (f g : A -> R) d a : 0 <= d -> In a l -> (forall c, In c l -> Rabs (f c - g c) <= d) ->
  Rabs (exp (f a) / Rsum (map (fun c => exp (f c)) l) - exp (g a) / Rsum (map (fun c => exp (g c)) l)) <= / 2 * d.
Proof.
  intros Hd Ha H. apply Rabs_le. pose proof (softmax_step l f g d a Hd Ha H).
  assert (H' : forall c, In c l -> Rabs (g c - f c) <= d) by (intros c Hc; rewrite Rabs_minus_sym; apply H; exact Hc).
  pose proof (softmax_step l g f d a Hd Ha H'). lra.
Qed.

(** ** The other layers *)
Lemma relu_lipschitz x y d : Rabs (x - y) <= d -> Rabs (Rmax 0 x - Rmax 0 y) <= d.
Proof. intros H. apply Rabs_le_inv in H. apply Rabs_le. unfold Rmax. destruct (Rle_dec 0 x), (Rle_dec 0 y); lra. Qed.

Lemma affine_lipschitz {A} (l : list A) (w x y : A -> R) b g d : 0 <= d -> (forall p, In p l -> Rabs (x p - y p) <= d) ->
  Rsum (map (fun p => Rabs (w p)) l) <= g ->
  Rabs ((Rsum (map (fun p => w p * x p) l) + b) - (Rsum (map (fun p => w p * y p) l) + b)) <= g * d.
Proof.
  intros Hd H Hg.
  replace (_ - _) with (Rsum (map (fun p => w p * (x p - y p)) l)).
  2: { rewrite (Rsum_ext _ (fun p => w p * x p + -1 * (w p * y p))) by (intros; ring). rewrite Rsum_plus, Rsum_scale. ring. }
  apply Rle_trans with (Rsum (map (fun p => Rabs (w p)) l) * d); [|apply Rmult_le_compat_r; assumption].
  rewrite <- Rsum_scale_r. clear Hg. induction l as [|a l IH]; cbn [map]; [change (Rsum []) with 0; rewrite Rabs_R0; lra|]. rewrite !Rsum_cons.
  eapply Rle_trans; [apply Rabs_triang|]. apply Rplus_le_compat; [|apply IH; intros p Hp; apply H; right; exact Hp].
  rewrite Rabs_mult. apply Rmult_le_compat_l; [apply Rabs_pos|]. apply H. left. reflexivity.
Qed.

Lemma max_lipschitz {A} low (l : list A) (x y : A -> R) d : 0 <= d -> (forall p, In p l -> Rabs (x p - y p) <= d) ->
  Rabs (fold_right Rmax low (map x l) - fold_right Rmax low (map y l)) <= d.
Proof.
  intros Hd. induction l as [|a l IH]; intros H; cbn [map fold_right]; [rewrite Rminus_diag_eq, Rabs_R0 by reflexivity; exact Hd|].
  assert (H1 := H a (or_introl eq_refl)). assert (H2 := IH (fun p Hp => H p (or_intror Hp))). apply Rabs_le_inv in H1, H2. apply Rabs_le.
  generalize dependent (fold_right Rmax low (map x l)). generalize dependent (fold_right Rmax low (map y l)). intros M M' H2. unfold Rmax. destruct (Rle_dec _ _), (Rle_dec _ _); lra.
Qed.

Section Net.
Context (low : R) (bm : build).
Notation AR := (R_arith low).
#[local] Hint Extern 0 (Arith R) => exact (R_arith low) : typeclass_instances.

Lemma layer_gain_nonneg p g : layer_gain low bm p g -> 0 <= g.
Proof. intros []; lra. Qed.

Lemma layer_lipschitz p X X' Y Y' s x x' d g : computes bm p X Y -> computes bm p X' Y' -> holds bm X s x -> holds bm X' s x' ->
  0 <= d -> apart d s x x' -> layer_gain low bm p g ->
  exists s1 y y', holds bm Y s1 y /\ holds bm Y' s1 y' /\ apart (g * d) s1 y y'.
Proof.
  intros C C' HX HX' Hd Hn HB.
  destruct C as [wt bt m n w b X0 x0 Y0 Hw Hb Hx Hy|kt bt st ins outs ks h bv X0 x0 Y0 Hk Hl1 Hl2 Hb Hc Hx Hy|ins mask outs st X0 x0 Y0 Hp Hx Hy|s0 X0 x0 Y0 Hx Hy].
  - inversion HB as [? ? m' n' wv' g' AR' Hw' HW Hg| | |]; subst. clear HB. subst AR'.
    pose proof (holds_shape _ _ _ _ _ _ Hw' Hw) as E. injection E as -> ->. pose proof (holds_shape _ _ _ _ _ _ HX Hx) as ->.
    inversion C' as [? ? m2 n2 w2 b2 X2 x2 Y2 Hw2 Hb2 Hx2 Hy2| | |]; subst. clear C'.
    pose proof (holds_shape _ _ _ _ _ _ Hw2 Hw) as E. injection E as -> ->.
    pose proof (holds_fun _ _ _ _ _ Hw Hw2) as Q1. pose proof (holds_fun _ _ _ _ _ Hb Hb2) as Q2. pose proof (holds_fun _ _ _ _ _ HX' Hx2) as Q3.
    pose proof (holds_fun _ _ _ _ _ HX Hx) as Q4. pose proof (holds_fun _ _ _ _ _ Hw Hw') as Q5.
    do 3 eexists. split; [exact Hy|]. split; [exact Hy2|]. intros i j k (Hi & Hj & Hk). cbn [di dj dk] in *. cbv beta.
    rewrite !relu_R. cbn [fadd fmul R_arith]. rewrite !sum_Rsum. apply relu_lipschitz.
    rewrite <- Q2 by (repeat split; cbn [di dj dk]; lia).
    rewrite (Rsum_ext (fun p => w2 i p 0%N * x2 p 0%N 0%N) (fun p => w i p 0%N * x2 p 0%N 0%N)).
    2: { intros p Hp. apply in_upto in Hp. rewrite <- Q1 by (repeat split; cbn [di dj dk]; lia). reflexivity. }
    apply (affine_lipschitz (upto n) (fun p => w i p 0%N) (fun p => x0 p 0%N 0%N) (fun p => x2 p 0%N 0%N)); [exact Hd| |].
    + intros p Hp. apply in_upto in Hp. rewrite <- Q3, <- Q4 by (repeat split; cbn [di dj dk]; lia). apply Hn. repeat split; cbn [di dj dk]; lia.
    + rewrite (Rsum_ext _ (fun p => Rabs (wv' i p 0%N))); [apply HW; exact Hi|]. intros p Hp. apply in_upto in Hp.
      rewrite <- Q5 by (repeat split; cbn [di dj dk]; lia). reflexivity.
  - inversion HB as [|? ? ? ? ? ks' h' g' AR' Hk' HW Hg| |]; subst. clear HB. subst AR'.
    pose proof (holds_shape _ _ _ _ _ _ HX Hx) as ->.
    inversion C' as [|? ? ? ? ? ks2 h2 bv2 X2 x2 Y2 Hk2 Hl12 Hl22 Hb2 Hc2 Hx2 Hy2| |]; subst. clear C'.
    do 3 eexists. split; [exact Hy|]. split; [exact Hy2|]. intros i j k Hin. pose proof Hin as (Hi & Hj & Hkk). cbv beta.
    rewrite !relu_R. cbn [fadd R_arith]. rewrite !sum_Rsum. apply relu_lipschitz.
    assert (Lt : (N.to_nat k < length kt)%nat) by (unfold len in Hl1; lia).
    destruct (nth_error kt (N.to_nat k)) as [tk|] eqn:Nk; [|apply nth_error_None in Nk; lia].
    pose proof (Hk k tk Nk) as Kk. pose proof (holds_shape _ _ _ _ _ _ (Hk2 k tk Nk) Kk) as ->. pose proof (holds_shape _ _ _ _ _ _ (Hk' k tk Nk) Kk) as ->.
    pose proof (holds_fun _ _ _ _ _ Kk (Hk2 k tk Nk)) as Q1. pose proof (holds_fun _ _ _ _ _ Kk (Hk' k tk Nk)) as Q5.
    destruct (nth_error bt (N.to_nat k)) as [tb|] eqn:Nb; [|apply nth_error_None in Nb; unfold len in Hl2; lia].
    pose proof (Hb k tb Nb) as B1. pose proof (Hb2 k tb Nb) as B2. rewrite B1 in B2. injection B2 as <-.
    pose proof (holds_fun _ _ _ _ _ HX' Hx2) as Q3. pose proof (holds_fun _ _ _ _ _ HX Hx) as Q4. unfold window_products.
    rewrite (Rsum_ext (fun '(p, q, c) => @fmul R AR (x0 (i * st + p)%N (j * st + q)%N c) (h k p q c))
      (fun t => (let '(p, q, c) := t in h k p q c) * (let '(p, q, c) := t in x0 (i * st + p)%N (j * st + q)%N c)))
      by (intros ((p & q) & c) _; cbn [fmul R_arith]; ring).
    rewrite (Rsum_ext (fun '(p, q, c) => @fmul R AR (x2 (i * st + p)%N (j * st + q)%N c) (h2 k p q c))
      (fun t => (let '(p, q, c) := t in h k p q c) * (let '(p, q, c) := t in x2 (i * st + p)%N (j * st + q)%N c)))
      by (intros ((p & q) & c) Hp; apply in_cells in Hp; cbn [fmul R_arith]; rewrite <- Q1 by exact Hp; ring).
    apply affine_lipschitz; [exact Hd| |].
    + intros ((p & q) & c) Hp. apply in_cells in Hp.
      assert (Hpos : in_shape ins (i * st + p) (j * st + q) c) by (exact (conv_inside _ _ _ _ _ _ _ _ _ _ (Hc k Hkk) Hi Hj Hp)).
      rewrite <- Q3, <- Q4 by exact Hpos. apply Hn. exact Hpos.
    + rewrite (Rsum_ext _ (fun '(p, q, c) => Rabs (h' k p q c))); [apply HW; exact Hkk|]. intros ((p & q) & c) Hp. apply in_cells in Hp.
      rewrite <- Q5 by exact Hp. reflexivity.
  - inversion HB; subst. clear HB. pose proof (holds_shape _ _ _ _ _ _ HX Hx) as ->.
    inversion C' as [| |? ? ? ? X2 x2 Y2 Hp2 Hx2 Hy2|]; subst. clear C'.
    pose proof (holds_fun _ _ _ _ _ HX' Hx2) as Q3. pose proof (holds_fun _ _ _ _ _ HX Hx) as Q4.
    do 3 eexists. split; [exact Hy|]. split; [exact Hy2|]. intros i j k Hin. cbv beta. unfold window_values. rewrite !running_max_R, Rmult_1_l.
    apply max_lipschitz; [exact Hd|]. intros ((p & q) & r) Hc.
    assert (Hpos : in_shape ins p q r) by (eapply pool_inside; eassumption). rewrite <- Q3, <- Q4 by exact Hpos. apply Hn. exact Hpos.
  - inversion HB; subst. clear HB. pose proof (holds_shape _ _ _ _ _ _ HX Hx) as ->.
    inversion C' as [| | |? X2 x2 Y2 Hx2 Hy2]; subst. clear C'.
    pose proof (holds_fun _ _ _ _ _ HX' Hx2) as Q3. pose proof (holds_fun _ _ _ _ _ HX Hx) as Q4.
    do 3 eexists. split; [exact Hy|]. split; [exact Hy2|]. intros i j k Hin. cbv beta. rewrite !sum_Rsum. cbn [fdiv fexp R_arith].
    pose proof (softmax_lipschitz (cells s0) (fun '(i, j, k) => x0 i j k) (fun '(i, j, k) => x2 i j k) d (i, j, k) Hd) as G.
    rewrite (map_ext (fun '(i, j, k) => exp (x0 i j k)) (fun c : N * N * N => exp (let '(i, j, k) := c in x0 i j k))) by (intros ((? & ?) & ?); reflexivity).
    rewrite (map_ext (fun '(i, j, k) => exp (x2 i j k)) (fun c : N * N * N => exp (let '(i, j, k) := c in x2 i j k))) by (intros ((? & ?) & ?); reflexivity).
    apply G; [apply in_cells; exact Hin|]. intros ((p & q) & c) Hp. apply in_cells in Hp. rewrite <- Q3, <- Q4 by exact Hp. apply Hn. exact Hp.
Qed.

Lemma composes_lipschitz ps g : net_gain low bm ps g -> forall X X' Y Y' s x x' d,
  composes bm ps X Y -> composes bm ps X' Y' -> holds bm X s x -> holds bm X' s x' -> 0 <= d -> apart d s x x' ->
  exists s1 y y', holds bm Y s1 y /\ holds bm Y' s1 y' /\ apart (g * d) s1 y y'.
Proof.
  induction 1 as [|p ps g1 g2 Hp H IH]; intros X X' Y Y' s x x' d C C' HX HX' Hd Hn; cbn [composes] in C, C'.
  - subst. exists s, x, x'. rewrite Rmult_1_l. auto.
  - destruct C as (Z & C1 & C2), C' as (Z' & C1' & C2').
    destruct (layer_lipschitz _ _ _ _ _ _ _ _ _ _ C1 C1' HX HX' Hd Hn Hp) as (s1 & y & y' & Hy & Hy' & Hn1).
    replace (g1 * g2 * d) with (g2 * (g1 * d)) by ring.
    eapply IH; [exact C2|exact C2'|exact Hy|exact Hy'| |exact Hn1]. apply Rmult_le_pos; [eapply layer_gain_nonneg; exact Hp|exact Hd].
Qed.
End Net.

Lemma network_lipschitz (BT : Bits R) low bm (n n' : network R) X X' x x' d g :
  let AR := R_arith low in
  well_built bm n -> well_built bm n' -> layers n <> [] -> map params_of (layers n) = map params_of (layers n') -> net_input_shape n' = net_input_shape n ->
  holds bm X (net_input_shape n) x -> holds bm X' (net_input_shape n) x' ->
  0 <= d -> apart d (net_input_shape n) x x' -> net_gain low bm (map params_of (layers n)) g ->
  exists n1 n1' Y Y' s y y', infer bm n X = Done (n1, Ok tt) /\ get_output n1 = Done (Ok Y)
    /\ infer bm n' X' = Done (n1', Ok tt) /\ get_output n1' = Done (Ok Y')
    /\ holds bm Y s y /\ holds bm Y' s y' /\ apart (g * d) s y y'.
Proof.
  intros AR B B' NE EP Si HX HX' Hd Hn HB.
  pose proof (built_ok bm n (relu_agrees_R low) B) as Ok. pose proof (built_ok bm n' (relu_agrees_R low) B') as Ok'.
  assert (NE' : layers n' <> []). { intros E. rewrite E in EP. apply map_eq_nil in EP. contradiction. }
  destruct (infer_ok bm n X (relu_agrees_R low) Ok NE (proj1 (holds_shaped _ _ _ _ HX)) (proj2 (holds_shaped _ _ _ _ HX))) as (n1 & Y & E & _ & _ & G & C).
  destruct (infer_ok bm n' X' (relu_agrees_R low) Ok' NE' (proj1 (holds_shaped _ _ _ _ HX'))) as (n1' & Y' & E' & _ & _ & G' & C').
  { rewrite Si. apply (holds_shaped _ _ _ _ HX'). }
  rewrite <- EP in C'.
  destruct (composes_lipschitz low bm _ _ HB X X' Y Y' _ x x' d C C' HX HX' Hd Hn) as (s & y & y' & Hy & Hy' & N1).
  exists n1, n1', Y, Y', s, y, y'. auto 10.
Qed.

(** ** In f32: the exact change and the rounding error on either side *)
Lemma network_stable e (BT : Bits R) low bm (n : network f32) (n' : network R) X X' x x' a d a1 d1 g :
  @well_built f32 (f32_arith e) f32_bits bm n -> @well_built R (R_arith low) BT bm n' -> layers n <> [] ->
  Forall2 exact_params (map params_of (layers n)) (map params_of (layers n')) -> net_input_shape n' = net_input_shape n ->
  @holds f32 (f32_arith e) bm X (net_input_shape n) x -> @holds f32 (f32_arith e) bm X' (net_input_shape n) x' ->
  (forall i j k, in_shape (net_input_shape n) i j k -> fin (x i j k) = true /\ fin (x' i j k) = true /\ Rabs (real (x i j k)) <= a /\ Rabs (real (x' i j k)) <= a
     /\ Rabs (real (x i j k) - real (x' i j k)) <= d) ->
  0 <= a -> 0 <= d -> net_bounds e low bm (map params_of (layers n')) a 0 a1 d1 -> net_gain low bm (map params_of (layers n')) g ->
  exists n1 n1' Y Y' s y y',
    @infer bm f32 (f32_arith e) n X = Done (n1, Ok tt) /\ get_output n1 = Done (Ok Y)
    /\ @infer bm f32 (f32_arith e) n X' = Done (n1', Ok tt) /\ get_output n1' = Done (Ok Y')
    /\ @holds f32 (f32_arith e) bm Y s y /\ @holds f32 (f32_arith e) bm Y' s y'
    /\ forall i j k, in_shape s i j k -> fin (y i j k) = true /\ fin (y' i j k) = true /\ Rabs (real (y i j k) - real (y' i j k)) <= g * d + 2 * d1.
Proof.
  intros B B' NE EP Si HX HX' Hin Ha Hd HB HG.
  assert (A : allocatable (net_input_shape n)) by (apply holds_iff in HX; apply HX).
  set (xr := fun i j k => real (x i j k)). set (xr' := fun i j k => real (x' i j k)).
  assert (HR : @holds R (R_arith low) bm (of_fun (net_input_shape n) xr) (net_input_shape n) xr) by (apply holds_of_fun; exact A).
  assert (HR' : @holds R (R_arith low) bm (of_fun (net_input_shape n) xr') (net_input_shape n) xr') by (apply holds_of_fun; exact A).
  destruct (network_error e BT low bm n n' X _ x xr a 0 a1 d1 B B' NE EP Si HX HR Ha (Rle_refl 0)) as (n1 & m1 & Y & Z & s & y & z & E1 & G1 & F1 & K1 & Hy & Hz & N1); [|exact HB|].
  { intros i j k H. destruct (Hin i j k H) as (P1 & _ & P2 & _). unfold xr. rewrite Rminus_diag_eq, Rabs_R0 by reflexivity. auto using Rle_refl. }
  destruct (network_error e BT low bm n n' X' _ x' xr' a 0 a1 d1 B B' NE EP Si HX' HR' Ha (Rle_refl 0)) as (n1' & m1' & Y' & Z' & s' & y' & z' & E1' & G1' & F1' & K1' & Hy' & Hz' & N1'); [|exact HB|].
  { intros i j k H. destruct (Hin i j k H) as (_ & P1 & _ & P2 & _). unfold xr'. rewrite Rminus_diag_eq, Rabs_R0 by reflexivity. auto using Rle_refl. }
  assert (NE' : layers n' <> []). { intros E. rewrite E in EP. inversion EP as [E2|]. symmetry in E2. apply map_eq_nil in E2. contradiction. }
  destruct (network_lipschitz BT low bm n' n' (of_fun (net_input_shape n) xr) (of_fun (net_input_shape n) xr') xr xr' d g B' B' NE' eq_refl eq_refl) as (k1 & k1' & V & V' & t & v & v' & L1 & L2 & L3 & L4 & L5 & L6 & L7).
  { rewrite Si. exact HR. } { rewrite Si. exact HR'. } { exact Hd. } { rewrite Si. intros i j k H. apply Hin. exact H. } { exact HG. }
  rewrite F1 in L1. injection L1 as <-. rewrite K1 in L2. injection L2 as <-. rewrite F1' in L3. injection L3 as <-. rewrite K1' in L4. injection L4 as <-.
  pose proof (holds_shape _ _ _ _ _ _ L5 Hz) as ->. pose proof (holds_shape _ _ _ _ _ _ L6 Hz') as <-.
  pose proof (holds_fun _ _ _ _ _ L5 Hz) as Q1. pose proof (holds_fun _ _ _ _ _ L6 Hz') as Q2.
  exists n1, n1', Y, Y', s, y, y'. split; [exact E1|]. split; [exact G1|]. split; [exact E1'|]. split; [exact G1'|]. split; [exact Hy|]. split; [exact Hy'|].
  intros i j k H. destruct (N1 i j k H) as (A1 & A2 & _). destruct (N1' i j k H) as (A3 & A4 & _). split; [exact A1|]. split; [exact A3|].
  pose proof (L7 i j k H) as A5. rewrite Q1, Q2 in A5 by exact H. apply Rabs_le_inv in A2, A4, A5. apply Rabs_le. lra.
Qed.
