(** * f32 against exact arithmetic: matrix product, convolution, fully connected layer, softmax *)
From Coq Require Import Reals Lra ZifyBool ZifyNat ZifyN.
From Flocq Require Import Core IEEE754.Binary.
From Verif Require Import Base Arith Helper Tensor Convolution FullyConnected Spec SpecLayer SpecReal SpecTrain Loops TensorFacts OpsFacts ProofsTensor ProofsConv LayerFacts.
From Verif Require Import Float32 Float32Facts RealSums SpecError FloatError ProofsFloat ProofsLayer.
Local Open Scope R_scope.

Section Env.
Context (e : env).
#[local] Hint Extern 0 (Arith f32) => exact (f32_arith e) : typeclass_instances.

(** Products summed from 0.0, for any enumeration of the terms. *)
Lemma sum_error {A} (l : list A) (f g : A -> f32) :
  let s := sum (map (fun p => fmul (f p) (g p)) l) in
  fin s = true ->
  Rabs (real s - Rsum (map (fun p => real (f p) * real (g p)) l))
  <= bound (length l) (Rsum (map (fun p => Rabs (real (f p) * real (g p))) l)).
Proof.
  cbv zeta. pose proof (dot_error e (map (fun p => (f p, g p)) l)) as H. cbv zeta in H.
  rewrite !map_map in H. cbn [fst snd] in H. rewrite map_length in H. exact H.
Qed.

Lemma matrix_multiply_error bm (t1 t2 r : tensor f32) s1 s2 sr f1 f2 :
  holds bm t1 s1 f1 -> holds bm t2 s2 f2 -> shaped r sr -> mm_shapes s1 s2 sr ->
  exists r' g, matrix_multiply bm t1 t2 r = Done r' /\ holds bm r' sr g
    /\ forall i j k, in_shape sr i j k -> fin (g i j k) = true ->
       Rabs (real (g i j k) - Rsum (map (fun p => real (f1 i p k) * real (f2 p j k)) (upto (dj s1))))
       <= bound (N.to_nat (dj s1)) (Rsum (map (fun p => Rabs (real (f1 i p k) * real (f2 p j k))) (upto (dj s1)))).
Proof.
  intros H1 H2 Hr S. destruct (matrix_multiply_spec bm t1 t2 r s1 s2 sr f1 f2 _ H1 H2 (shaped_holds bm _ _ Hr)) as (P & _).
  destruct (P S) as (r' & E & H). exists r'. eexists. split; [exact E|]. split; [exact H|]. cbv beta. intros i j k _ Hf.
  pose proof (sum_error _ _ _ Hf) as Q. rewrite length_upto in Q. exact Q.
Qed.

(** Adding a bias at the end. *)

Lemma biased_error {A} (l : list A) (f g : A -> f32) b :
  let s := fadd (sum (map (fun p => fmul (f p) (g p)) l)) b in
  fin s = true ->
  Rabs (real s - (Rsum (map (fun p => real (f p) * real (g p)) l) + real b))
  <= bound_biased (length l) (Rsum (map (fun p => Rabs (real (f p) * real (g p))) l)) (Rabs (real b)).
Proof.
  cbv zeta. set (s := sum _). intros Hf. destruct (add_finite e s b Hf) as (Fs & _ & E).
  pose proof (sum_error l f g Fs) as Q. fold s in Q. set (S := Rsum (map (fun p => real (f p) * real (g p)) l)) in *.
  set (B := Rsum (map (fun p => Rabs (real (f p) * real (g p))) l)) in *.
  assert (HS : Rabs S <= B). { apply Rabs_Rsum. }
  destruct (plus_error s b) as (d & Hd & E2). change (fadd s b) with (f32_add e s b). rewrite E, E2.
  replace ((real s + real b) * (1 + d) - (S + real b)) with ((real s - S) * (1 + d) + (S * d + real b * d)) by ring.
  eapply Rle_trans; [apply Rabs_triang|]. rewrite Rabs_mult. pose proof u_pos. pose proof eta_pos.
  assert (Rabs (1 + d) <= 1 + u) by (eapply Rle_trans; [apply Rabs_triang|]; rewrite Rabs_R1; lra).
  assert (T1 : Rabs (real s - S) * Rabs (1 + d) <= bound (length l) B * (1 + u)) by (apply Rmult_le_compat; try apply Rabs_pos; assumption).
  assert (T2 : Rabs (S * d + real b * d) <= B * u + Rabs (real b) * u).
  { eapply Rle_trans; [apply Rabs_triang|]. rewrite !Rabs_mult. apply Rplus_le_compat; apply Rmult_le_compat; try apply Rabs_pos; try assumption; lra. }
  unfold bound_biased, bound in *. rewrite pow_add, pow_1. pose proof (pow_1u_ge (length l)) as Pn. set (p := (1 + u) ^ length l) in *.
  pose proof (Rabs_pos (real b)). 
  assert (Rabs (real b) * u <= (p * (1 + u) - 1) * Rabs (real b)).
  { rewrite (Rmult_comm (p * (1 + u) - 1)). apply Rmult_le_compat_l; [assumption|]. assert (1 * (1 + u) <= p * (1 + u)) by (apply Rmult_le_compat_r; lra). lra. }
  lra.
Qed.

Lemma pre_activation_error n (w b x : N -> N -> N -> f32) i :
  fin (pre_activation n w b x i) = true ->
  Rabs (real (pre_activation n w b x i) - (Rsum (map (fun p => real (w i p 0%N) * real (x p 0%N 0%N)) (upto n)) + real (b i 0%N 0%N)))
  <= bound_biased (N.to_nat n) (Rsum (map (fun p => Rabs (real (w i p 0%N) * real (x p 0%N 0%N))) (upto n))) (Rabs (real (b i 0%N 0%N))).
Proof. intros H. pose proof (biased_error (upto n) _ _ _ H) as Q. rewrite length_upto in Q. exact Q. Qed.

Lemma convolution_error bm (image kernel bias r : tensor f32) s ks bs rs f h bv stride ch :
  holds bm image s f -> holds bm kernel ks h -> shaped bias bs -> shaped r rs ->
  get_item bm bias (mkIndex 0 0 0) = Done bv -> conv_ok s ks stride rs ch -> at_most_one bs ->
  exists o g, convolution_bias bm image kernel bias stride r ch = Done (o, Ok tt) /\ holds bm o rs g
    /\ forall i j, fin (g i j ch) = true ->
       Rabs (real (g i j ch) - (Rsum (map (fun '(a, b, c) => real (f (i * stride + a)%N (j * stride + b)%N c) * real (h a b c)) (cells ks)) + real bv))
       <= bound_biased (N.to_nat (di ks * dj ks * dk ks))
            (Rsum (map (fun '(a, b, c) => Rabs (real (f (i * stride + a)%N (j * stride + b)%N c) * real (h a b c))) (cells ks))) (Rabs (real bv)).
Proof.
  intros Hi Hk Hb Hr Gb C A. pose proof (shaped_holds bm _ _ Hr) as Kr. pose proof (shaped_holds bm _ _ Hb) as Kb.
  destruct (conv_with_spec (fun x => x) bm image kernel bias r s ks bs rs f h _ _ bv stride ch Hi Hk Kb Kr Gb) as (P & Q & _).
  destruct (P C A) as (o & E). destruct (Q o E) as (Ho & _). exists o. eexists. split; [exact E|]. split; [exact Ho|].
  intros i j. cbv beta. unfold conv_result. rewrite N.eqb_refl. unfold conv_terms. intros Hf.
  set (F1 := fun c : N * N * N => let '(a, b, k) := c in f (i * stride + a)%N (j * stride + b)%N k).
  set (F2 := fun c : N * N * N => let '(a, b, k) := c in h a b k).
  assert (E1 : map (fun '(ki, kj, kk) => fmul (f (i * stride + ki)%N (j * stride + kj)%N kk) (h ki kj kk)) (cells ks)
               = map (fun c => fmul (F1 c) (F2 c)) (cells ks)) by (apply map_ext; intros ((a & b) & c); reflexivity).
  rewrite E1 in *. pose proof (biased_error (cells ks) F1 F2 bv Hf) as B. rewrite length_cells in B.
  rewrite (Rsum_ext (fun '(a, b, c) => real (f (i * stride + a)%N (j * stride + b)%N c) * real (h a b c)) (fun c => real (F1 c) * real (F2 c)))
    by (intros ((a & b) & c) _; reflexivity).
  rewrite (Rsum_ext (fun '(a, b, c) => Rabs (real (f (i * stride + a)%N (j * stride + b)%N c) * real (h a b c))) (fun c => Rabs (real (F1 c) * real (F2 c))))
    by (intros ((a & b) & c) _; reflexivity).
  exact B.
Qed.

Lemma fc_forward_error bm (l : fc_layer f32) m n (w b x : N -> N -> N -> f32) X Y0 :
  fc_ok m n l -> holds bm (fc_weights l) (mkShape m n 1) w -> holds bm (fc_bias l) (mkShape m 1 1) b ->
  holds bm X (mkShape n 1 1) x -> shaped Y0 (mkShape m 1 1) ->
  exists l' Y z, fc_forward bm l X Y0 = Done (l', Y, Ok tt) /\ holds bm Y (mkShape m 1 1) (fun i _ _ => relu (z i))
    /\ forall i, fin (z i) = true ->
       Rabs (real (z i) - (Rsum (map (fun p => real (w i p 0%N) * real (x p 0%N 0%N)) (upto n)) + real (b i 0%N 0%N)))
       <= bound_biased (N.to_nat n) (Rsum (map (fun p => Rabs (real (w i p 0%N) * real (x p 0%N 0%N))) (upto n))) (Rabs (real (b i 0%N 0%N))).
Proof.
  intros Hok Hw Hb Hx HY. destruct (fc_forward_holds bm l m n w b x X Y0 (f32_relu_agrees e) Hok Hw Hb Hx HY) as (l' & Y & E & HYY).
  exists l', Y, (pre_activation n w b x). split; [exact E|]. split; [exact HYY|]. intros i. apply pre_activation_error.
Qed.

(** ** Softmax *)
Lemma softmax_unit bm (t o : tensor f32) s f :
  (forall x, f32_gtb f32_zero (env_exp e x) = false) ->
  holds bm t s f -> shaped o s ->
  let total := sum (map (fun '(i, j, k) => fexp (f i j k)) (cells s)) in
  fin total = true -> real total <> 0 ->
  exists o' g, softmax t o = Done o' /\ holds bm o' s g
    /\ forall i j k, in_shape s i j k -> fin (g i j k) = true /\ 0 <= real (g i j k) <= 1.
Proof.
  intros Pos Ht Ho total Hf Hz. apply holds_iff in Ht. destruct Ht as (A & ->). pose proof (shaped_eq _ _ Ho) as (_ & ->). rewrite softmax_of_fun.
  do 2 eexists. split; [reflexivity|]. split; [apply holds_of_fun; exact A|]. cbv beta. fold total.
  assert (Nn : forall x, fin (env_exp e x) = true -> 0 <= real (env_exp e x)).
  { intros x Fx. specialize (Pos x). rewrite gtb_false in Pos.
    - rewrite !rank_finite in Pos by (reflexivity || exact Fx). exact Pos.
    - reflexivity.
    - destruct (env_exp e x); try discriminate; reflexivity. }
  destruct (sum_grows e (map (fun '(i, j, k) => fexp (f i j k)) (cells s)) f32_zero Hf) as (Z & G).
  - intros y Hy. apply in_map_iff in Hy. destruct Hy as (((i & j) & k) & <- & _). apply Nn.
  - reflexivity.
  - cbn. lra.
  - change (fold_left _ _ _) with total in Z, G. cbn in Z. intros i j k Hin. apply in_cells in Hin.
    destruct (G (env_exp e (f i j k))) as (Fx & Lx). { apply in_map_iff. exists (i, j, k). split; [reflexivity|exact Hin]. }
    apply div_unit; [exact Fx|exact Hf|split; [apply Nn; exact Fx|exact Lx]|].
    assert (real f32_zero = 0) by reflexivity. lra.
Qed.
End Env.
