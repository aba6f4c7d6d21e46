(** * Algebra over the reals: norm, matrix product, convolution, softmax *)
From Coq Require Import Reals Lra ZifyBool ZifyNat ZifyN.
From Verif Require Import Base Arith Helper Tensor Convolution Spec SpecLayer SpecReal Loops TensorFacts OpsFacts ProofsTensor ProofsConv LayerFacts RealArith RealSums.
Local Open Scope R_scope.

Section Real.
Context (m : R).
#[local] Hint Extern 0 (Arith R) => exact (R_arith m) : typeclass_instances.
Notation T := (tensor R).

(** ** Norm *)
Lemma fold_squares l a : fold_left (fun total d => total + d * d) l a = a + Rsum (map (fun d => d * d) l).
Proof. revert a; induction l as [|x l IH]; intros a; cbn [fold_left map]; [cbn; ring|]. rewrite IH, Rsum_cons. ring. Qed.

Lemma norm_cells bm (t : T) s f : holds bm t s f ->
  get_norm t = sqrt (Rsum (map (fun '(i, j, k) => f i j k * f i j k) (cells s))).
Proof.
  intros H. apply holds_iff in H. destruct H as (_ & ->). unfold get_norm. cbn [data of_fun fsqrt fadd fpowi2 fzero R_arith].
  rewrite fold_squares, Rplus_0_l, map_map. do 2 f_equal. apply map_ext. intros ((i & j) & k). reflexivity.
Qed.

Lemma squares_nonneg s (f : N -> N -> N -> R) : 0 <= Rsum (map (fun '(i, j, k) => f i j k * f i j k) (cells s)).
Proof. apply Rsum_nonneg. intros ((i & j) & k) _. apply Rle_0_sqr. Qed.

Lemma norm_zero bm (t : T) s f : holds bm t s f -> (get_norm t = 0 <-> forall i j k, in_shape s i j k -> f i j k = 0).
Proof.
  intros H. rewrite (norm_cells bm t s f H). split.
  - intros E i j k Hin. apply sqrt_eq_0 in E; [|apply squares_nonneg].
    apply Rsqr_0_uniq. unfold Rsqr. apply (Rsum_zero_inv (fun '(i, j, k) => f i j k * f i j k) (cells s)) with (x := (i, j, k)).
    + intros ((i' & j') & k') _. apply Rle_0_sqr.
    + exact E.
    + apply in_cells. exact Hin.
  - intros E. rewrite Rsum_zero; [apply sqrt_0|]. intros ((i & j) & k) Hin. apply in_cells in Hin. rewrite E by exact Hin. ring.
Qed.

Lemma norm_scale bm (t : T) s f c : holds bm t s f -> get_norm (scale_self t c) = Rabs c * get_norm t.
Proof.
  intros H. rewrite (norm_cells bm t s f H). rewrite (norm_cells bm _ s _ (scale_self_holds bm t c s f H)). cbn [fmul R_arith].
  rewrite <- sqrt_Rsqr_abs, <- sqrt_mult_alt by apply Rle_0_sqr. f_equal. rewrite <- Rsum_scale. apply Rsum_ext.
  intros ((i & j) & k) _. unfold Rsqr. ring.
Qed.

(** ** Matrix product *)
Lemma product_holds bm (a b r : T) sa sb sr f g : holds bm a sa f -> holds bm b sb g -> shaped r sr -> mm_shapes sa sb sr ->
  exists r', matrix_multiply bm a b r = Done r' /\ holds bm r' sr (fun i j k => Rsum (map (fun p => f i p k * g p j k) (upto (dj sa)))).
Proof.
  intros Ha Hb Hr S. destruct (matrix_multiply_spec bm a b r sa sb sr f g _ Ha Hb (shaped_holds bm _ _ Hr)) as (P & _).
  destruct (P S) as (r' & E & H). exists r'. split; [exact E|]. eapply holds_ext; [|exact H]. intros i j k _. apply sum_Rsum.
Qed.

Lemma holds_same bm (a b : T) s f g : holds bm a s f -> holds bm b s g -> (forall i j k, in_shape s i j k -> f i j k = g i j k) -> a = b.
Proof. intros Ha Hb E. apply holds_iff in Ha, Hb. destruct Ha as (_ & ->), Hb as (_ & ->). apply of_fun_ext. exact E. Qed.

Lemma product_associative bm n p q r d (A B C ab bc r1 r2 : T) :
  shaped A (mkShape n p d) -> shaped B (mkShape p q d) -> shaped C (mkShape q r d) ->
  shaped ab (mkShape n q d) -> shaped bc (mkShape p r d) -> shaped r1 (mkShape n r d) -> shaped r2 (mkShape n r d) ->
  exists AB BC P, matrix_multiply bm A B ab = Done AB /\ matrix_multiply bm B C bc = Done BC
    /\ matrix_multiply bm AB C r1 = Done P /\ matrix_multiply bm A BC r2 = Done P.
Proof.
  intros HA HB HC Hab Hbc H1 H2.
  pose proof (shaped_holds bm _ _ HA) as KA. pose proof (shaped_holds bm _ _ HB) as KB. pose proof (shaped_holds bm _ _ HC) as KC.
  destruct (product_holds bm A B ab _ _ _ _ _ KA KB Hab) as (AB & E1 & KAB); [repeat split|].
  destruct (product_holds bm B C bc _ _ _ _ _ KB KC Hbc) as (BC & E2 & KBC); [repeat split|].
  destruct (product_holds bm AB C r1 _ _ _ _ _ KAB KC H1) as (P & E3 & KP); [repeat split|].
  destruct (product_holds bm A BC r2 _ _ _ _ _ KA KBC H2) as (P' & E4 & KP'); [repeat split|].
  exists AB, BC, P. repeat (split; [assumption|]). rewrite E4. f_equal. symmetry. eapply holds_same; [exact KP|exact KP'|].
  intros i j k _. cbn [dj]. transitivity (Rsum (map (fun y => Rsum (map (fun x => val A i x k * val B x y k * val C y j k) (upto p))) (upto q))).
  - apply Rsum_ext. intros y _. rewrite <- Rsum_scale_r. reflexivity.
  - rewrite Rsum_swap. apply Rsum_ext. intros x _. rewrite <- Rsum_scale. apply Rsum_ext. intros y _. ring.
Qed.

Lemma product_distributes bm n p q d (A B C ab ac bc r r' : T) :
  shaped A (mkShape n p d) -> shaped B (mkShape p q d) -> shaped C (mkShape p q d) -> shaped bc (mkShape p q d) ->
  shaped ab (mkShape n q d) -> shaped ac (mkShape n q d) -> shaped r (mkShape n q d) -> shaped r' (mkShape n q d) ->
  exists AB AC, matrix_multiply bm A B ab = Done AB /\ matrix_multiply bm A C ac = Done AC
    /\ matrix_multiply bm A (add B C bc) r = Done (add AB AC r').
Proof.
  intros HA HB HC Hbc Hab Hac Hr Hr'.
  pose proof (shaped_holds bm _ _ HA) as KA. pose proof (shaped_holds bm _ _ HB) as KB. pose proof (shaped_holds bm _ _ HC) as KC.
  destruct (product_holds bm A B ab _ _ _ _ _ KA KB Hab) as (AB & E1 & KAB); [repeat split|].
  destruct (product_holds bm A C ac _ _ _ _ _ KA KC Hac) as (AC & E2 & KAC); [repeat split|].
  pose proof (add_holds bm B C bc _ _ _ _ KB KC (shaped_holds bm _ _ Hbc)) as KS.
  destruct (product_holds bm A _ r _ _ _ _ _ KA KS Hr) as (P & E3 & KP); [repeat split|].
  exists AB, AC. repeat (split; [assumption|]). rewrite E3. f_equal.
  eapply holds_same; [exact KP|exact (add_holds bm _ _ _ _ _ _ _ KAB KAC (shaped_holds bm _ _ Hr'))|].
  intros i j k _. cbn [dj fadd R_arith]. rewrite <- Rsum_plus. apply Rsum_ext. intros x _. ring.
Qed.

Lemma product_distributes_right bm n p q d (A B C ac bc ab r r' : T) :
  shaped A (mkShape n p d) -> shaped B (mkShape n p d) -> shaped C (mkShape p q d) -> shaped ab (mkShape n p d) ->
  shaped ac (mkShape n q d) -> shaped bc (mkShape n q d) -> shaped r (mkShape n q d) -> shaped r' (mkShape n q d) ->
  exists AC BC, matrix_multiply bm A C ac = Done AC /\ matrix_multiply bm B C bc = Done BC
    /\ matrix_multiply bm (add A B ab) C r = Done (add AC BC r').
Proof.
  intros HA HB HC Hab Hac Hbc Hr Hr'.
  pose proof (shaped_holds bm _ _ HA) as KA. pose proof (shaped_holds bm _ _ HB) as KB. pose proof (shaped_holds bm _ _ HC) as KC.
  destruct (product_holds bm A C ac _ _ _ _ _ KA KC Hac) as (AC & E1 & KAC); [repeat split|].
  destruct (product_holds bm B C bc _ _ _ _ _ KB KC Hbc) as (BC & E2 & KBC); [repeat split|].
  pose proof (add_holds bm A B ab _ _ _ _ KA KB (shaped_holds bm _ _ Hab)) as KS.
  destruct (product_holds bm _ C r _ _ _ _ _ KS KC Hr) as (P & E3 & KP); [repeat split|].
  exists AC, BC. repeat (split; [assumption|]). rewrite E3. f_equal.
  eapply holds_same; [exact KP|exact (add_holds bm _ _ _ _ _ _ _ KAC KBC (shaped_holds bm _ _ Hr'))|].
  intros i j k _. cbn [dj fadd R_arith]. rewrite <- Rsum_plus. apply Rsum_ext. intros x _. ring.
Qed.

Lemma product_transpose bm n p q d (A B ab at_ bt abt r : T) :
  shaped A (mkShape n p d) -> shaped B (mkShape p q d) -> shaped ab (mkShape n q d) ->
  shaped at_ (mkShape p n d) -> shaped bt (mkShape q p d) -> shaped abt (mkShape q n d) -> shaped r (mkShape q n d) ->
  exists AB At Bt P, matrix_multiply bm A B ab = Done AB /\ transpose_ij bm A at_ = Done (At, Ok tt) /\ transpose_ij bm B bt = Done (Bt, Ok tt)
    /\ transpose_ij bm AB abt = Done (P, Ok tt) /\ matrix_multiply bm Bt At r = Done P.
Proof.
  intros HA HB Hab Hat Hbt Habt Hr.
  pose proof (shaped_holds bm _ _ HA) as KA. pose proof (shaped_holds bm _ _ HB) as KB.
  destruct (product_holds bm A B ab _ _ _ _ _ KA KB Hab) as (AB & E1 & KAB); [repeat split|].
  destruct (proj1 (transpose_spec bm A at_ _ _ _ _ KA (shaped_holds bm _ _ Hat))) as (At & E2 & KAt); [repeat split|].
  destruct (proj1 (transpose_spec bm B bt _ _ _ _ KB (shaped_holds bm _ _ Hbt))) as (Bt & E3 & KBt); [repeat split|].
  destruct (proj1 (transpose_spec bm AB abt _ _ _ _ KAB (shaped_holds bm _ _ Habt))) as (P & E4 & KP); [repeat split|].
  destruct (product_holds bm Bt At r _ _ _ _ _ KBt KAt Hr) as (P' & E5 & KP'); [repeat split|].
  exists AB, At, Bt, P. repeat (split; [assumption|]). rewrite E5. f_equal. symmetry. eapply holds_same; [exact KP|exact KP'|].
  intros i j k _. cbn [dj]. apply Rsum_ext. intros x _. ring.
Qed.

(** ** Convolution *)
Lemma conv_holds bm (image kernel bias r : T) s ks bs rs f h stride ch :
  holds bm image s f -> holds bm kernel ks h -> holds bm bias bs (fun _ _ _ => 0) -> shaped r rs ->
  conv_ok s ks stride rs ch -> at_most_one bs ->
  exists o g, convolution_bias bm image kernel bias stride r ch = Done (o, Ok tt) /\ holds bm o rs g
    /\ forall i j, g i j ch = Rsum (window_products ks stride f h i j).
Proof.
  intros Hi Hk Hb Hr C A. pose proof (shaped_holds bm _ _ Hr) as Kr.
  assert (Gb : get_item bm bias (mkIndex 0 0 0) = Done 0).
  { apply holds_iff in Hb. destruct Hb as (Ab & ->). rewrite get_bias by exact Ab. unfold bias_value. destruct (in_shapeb bs 0 0 0); reflexivity. }
  destruct (conv_with_spec (fun x => x) bm image kernel bias r s ks bs rs f h _ _ 0 stride ch Hi Hk Hb Kr Gb) as (P & Q & _).
  destruct (P C A) as (o & E). destruct (Q o E) as (Ho & _). exists o. eexists. split; [exact E|]. split; [exact Ho|].
  intros i j. cbv beta. unfold conv_result. rewrite N.eqb_refl. unfold conv_terms. rewrite sum_Rsum. cbn [fadd R_arith]. apply Rplus_0_r.
Qed.

Lemma window_image_plus ks stride f1 f2 h i j :
  Rsum (window_products ks stride (fun a b c => f1 a b c + f2 a b c) h i j)
  = Rsum (window_products ks stride f1 h i j) + Rsum (window_products ks stride f2 h i j).
Proof. unfold window_products. rewrite <- Rsum_plus. apply Rsum_ext. intros ((a & b) & c) _. cbn. ring. Qed.

Lemma window_kernel_plus ks stride f h1 h2 i j :
  Rsum (window_products ks stride f (fun a b c => h1 a b c + h2 a b c) i j)
  = Rsum (window_products ks stride f h1 i j) + Rsum (window_products ks stride f h2 i j).
Proof. unfold window_products. rewrite <- Rsum_plus. apply Rsum_ext. intros ((a & b) & c) _. cbn. ring. Qed.

Lemma window_image_scale ks stride f h z i j :
  Rsum (window_products ks stride (fun a b c => f a b c * z) h i j) = Rsum (window_products ks stride f h i j) * z.
Proof. unfold window_products. rewrite <- Rsum_scale_r. apply Rsum_ext. intros ((a & b) & c) _. cbn. ring. Qed.

Lemma window_kernel_scale ks stride f h z i j :
  Rsum (window_products ks stride f (fun a b c => h a b c * z) i j) = Rsum (window_products ks stride f h i j) * z.
Proof. unfold window_products. rewrite <- Rsum_scale_r. apply Rsum_ext. intros ((a & b) & c) _. cbn. ring. Qed.

Lemma conv_image_additive bm (im1 im2 buf kernel bias r1 r2 r3 : T) s ks bs rs stride ch :
  shaped im1 s -> shaped im2 s -> shaped buf s -> shaped kernel ks -> holds bm bias bs (fun _ _ _ => 0) -> at_most_one bs ->
  shaped r1 rs -> shaped r2 rs -> shaped r3 rs -> conv_ok s ks stride rs ch ->
  exists o1 o2 o3 g1 g2 g3, convolution_bias bm im1 kernel bias stride r1 ch = Done (o1, Ok tt)
    /\ convolution_bias bm im2 kernel bias stride r2 ch = Done (o2, Ok tt)
    /\ convolution_bias bm (add im1 im2 buf) kernel bias stride r3 ch = Done (o3, Ok tt)
    /\ holds bm o1 rs g1 /\ holds bm o2 rs g2 /\ holds bm o3 rs g3
    /\ forall i j, g3 i j ch = g1 i j ch + g2 i j ch.
Proof.
  intros H1 H2 Hb0 Hk Hb A R1 R2 R3 C.
  pose proof (shaped_holds bm _ _ H1) as K1. pose proof (shaped_holds bm _ _ H2) as K2. pose proof (shaped_holds bm _ _ Hk) as Kk.
  pose proof (add_holds bm im1 im2 buf _ _ _ _ K1 K2 (shaped_holds bm _ _ Hb0)) as K3.
  destruct (conv_holds bm _ _ _ r1 _ _ _ _ _ _ stride ch K1 Kk Hb R1 C A) as (o1 & g1 & E1 & G1 & V1).
  destruct (conv_holds bm _ _ _ r2 _ _ _ _ _ _ stride ch K2 Kk Hb R2 C A) as (o2 & g2 & E2 & G2 & V2).
  destruct (conv_holds bm _ _ _ r3 _ _ _ _ _ _ stride ch K3 Kk Hb R3 C A) as (o3 & g3 & E3 & G3 & V3).
  exists o1, o2, o3, g1, g2, g3. repeat (split; [assumption|]). intros i j. rewrite V1, V2, V3. apply window_image_plus.
Qed.

Lemma conv_kernel_additive bm (im k1 k2 buf bias r1 r2 r3 : T) s ks bs rs stride ch :
  shaped im s -> shaped k1 ks -> shaped k2 ks -> shaped buf ks -> holds bm bias bs (fun _ _ _ => 0) -> at_most_one bs ->
  shaped r1 rs -> shaped r2 rs -> shaped r3 rs -> conv_ok s ks stride rs ch ->
  exists o1 o2 o3 g1 g2 g3, convolution_bias bm im k1 bias stride r1 ch = Done (o1, Ok tt)
    /\ convolution_bias bm im k2 bias stride r2 ch = Done (o2, Ok tt)
    /\ convolution_bias bm im (add k1 k2 buf) bias stride r3 ch = Done (o3, Ok tt)
    /\ holds bm o1 rs g1 /\ holds bm o2 rs g2 /\ holds bm o3 rs g3
    /\ forall i j, g3 i j ch = g1 i j ch + g2 i j ch.
Proof.
  intros Hi H1 H2 Hb0 Hb A R1 R2 R3 C.
  pose proof (shaped_holds bm _ _ H1) as K1. pose proof (shaped_holds bm _ _ H2) as K2. pose proof (shaped_holds bm _ _ Hi) as Ki.
  pose proof (add_holds bm k1 k2 buf _ _ _ _ K1 K2 (shaped_holds bm _ _ Hb0)) as K3.
  destruct (conv_holds bm _ _ _ r1 _ _ _ _ _ _ stride ch Ki K1 Hb R1 C A) as (o1 & g1 & E1 & G1 & V1).
  destruct (conv_holds bm _ _ _ r2 _ _ _ _ _ _ stride ch Ki K2 Hb R2 C A) as (o2 & g2 & E2 & G2 & V2).
  destruct (conv_holds bm _ _ _ r3 _ _ _ _ _ _ stride ch Ki K3 Hb R3 C A) as (o3 & g3 & E3 & G3 & V3).
  exists o1, o2, o3, g1, g2, g3. repeat (split; [assumption|]). intros i j. rewrite V1, V2, V3. apply window_kernel_plus.
Qed.

Lemma conv_homogeneous bm (im kernel bufi bufk bias r1 r2 r3 : T) s ks bs rs stride ch z :
  shaped im s -> shaped kernel ks -> shaped bufi s -> shaped bufk ks -> holds bm bias bs (fun _ _ _ => 0) -> at_most_one bs ->
  shaped r1 rs -> shaped r2 rs -> shaped r3 rs -> conv_ok s ks stride rs ch ->
  exists o1 o2 o3 g1 g2 g3, convolution_bias bm im kernel bias stride r1 ch = Done (o1, Ok tt)
    /\ convolution_bias bm (scale im z bufi) kernel bias stride r2 ch = Done (o2, Ok tt)
    /\ convolution_bias bm im (scale kernel z bufk) bias stride r3 ch = Done (o3, Ok tt)
    /\ holds bm o1 rs g1 /\ holds bm o2 rs g2 /\ holds bm o3 rs g3
    /\ forall i j, g2 i j ch = g1 i j ch * z /\ g3 i j ch = g1 i j ch * z.
Proof.
  intros Hi Hk Hbi Hbk Hb A R1 R2 R3 C.
  pose proof (shaped_holds bm _ _ Hk) as Kk. pose proof (shaped_holds bm _ _ Hi) as Ki.
  pose proof (scale_holds bm im z bufi _ _ _ Ki (shaped_holds bm _ _ Hbi)) as K2.
  pose proof (scale_holds bm kernel z bufk _ _ _ Kk (shaped_holds bm _ _ Hbk)) as K3.
  destruct (conv_holds bm _ _ _ r1 _ _ _ _ _ _ stride ch Ki Kk Hb R1 C A) as (o1 & g1 & E1 & G1 & V1).
  destruct (conv_holds bm _ _ _ r2 _ _ _ _ _ _ stride ch K2 Kk Hb R2 C A) as (o2 & g2 & E2 & G2 & V2).
  destruct (conv_holds bm _ _ _ r3 _ _ _ _ _ _ stride ch Ki K3 Hb R3 C A) as (o3 & g3 & E3 & G3 & V3).
  exists o1, o2, o3, g1, g2, g3. repeat (split; [assumption|]). intros i j. rewrite V1, V2, V3.
  split; [apply window_image_scale|apply window_kernel_scale].
Qed.

(** ** Softmax *)
Lemma softmax_distribution bm (t o : T) s f : holds bm t s f -> shaped o s -> (0 < di s * dj s * dk s)%N ->
  exists o' g, softmax t o = Done o' /\ holds bm o' s g /\ (forall i j k, in_shape s i j k -> 0 < g i j k)%R
    /\ Rsum (map (fun '(i, j, k) => g i j k) (cells s)) = 1%R.
Proof.
  intros Ht Ho Hs. apply holds_iff in Ht. destruct Ht as (A & ->). pose proof (shaped_eq _ _ Ho) as (_ & ->). rewrite softmax_of_fun.
  do 2 eexists. split; [reflexivity|]. split; [apply holds_of_fun; exact A|]. cbv beta. cbn [fdiv fexp R_arith]. rewrite sum_Rsum.
  set (S := Rsum _). assert (HS : 0 < S).
  { apply Rsum_pos; [|intros ((i & j) & k) _; apply exp_pos]. intros E. pose proof (length_cells s) as L. rewrite E in L. cbn [length] in L. lia. }
  split.
  - intros i j k _. apply Rdiv_lt_0_compat; [apply exp_pos|exact HS].
  - rewrite (Rsum_ext _ (fun c => (fun '(i, j, k) => exp (f i j k)) c * / S)) by (intros ((i & j) & k) _; reflexivity).
    rewrite Rsum_scale_r. fold S. apply Rinv_r. lra.
Qed.
End Real.

(** The values of a window move with the image, whatever the arithmetic. *)
Lemma conv_shift {F} {AR : Arith F} bm (im im' kernel bias r r' : tensor F) s ks bs rs f f' stride ch a b :
  holds bm im s f -> holds bm im' s f' -> shaped kernel ks -> shaped bias bs -> at_most_one bs ->
  shaped r rs -> shaped r' rs -> conv_ok s ks stride rs ch ->
  (forall i j k, in_shape s (i + a * stride) (j + b * stride) k -> f' i j k = f (i + a * stride) (j + b * stride) k)%N ->
  exists o o' g g', convolution_bias bm im kernel bias stride r ch = Done (o, Ok tt)
    /\ convolution_bias bm im' kernel bias stride r' ch = Done (o', Ok tt) /\ holds bm o rs g /\ holds bm o' rs g'
    /\ forall i j, (i + a < di rs -> j + b < dj rs -> g' i j ch = g (i + a) (j + b) ch)%N.
Proof.
  intros Hi Hi' Hk Hb A Hr Hr' C Sh. pose proof (shaped_holds bm _ _ Hk) as Kk. pose proof (shaped_holds bm _ _ Hb) as Kb.
  pose proof (shaped_holds bm _ _ Hr) as Kr. pose proof (shaped_holds bm _ _ Hr') as Kr'.
  assert (exists bv, get_item bm bias (mkIndex 0 0 0) = Done bv) as (bv & Gb).
  { apply holds_iff in Kb. destruct Kb as (Ab & ->). rewrite get_bias by exact Ab. eauto. }
  destruct (conv_with_spec (fun x => x) bm im kernel bias r s ks bs rs f _ _ _ bv stride ch Hi Kk Kb Kr Gb) as (P & Q & _).
  destruct (conv_with_spec (fun x => x) bm im' kernel bias r' s ks bs rs f' _ _ _ bv stride ch Hi' Kk Kb Kr' Gb) as (P' & Q' & _).
  destruct (P C A) as (o & E). destruct (Q o E) as (Ho & _). destruct (P' C A) as (o' & E'). destruct (Q' o' E') as (Ho' & _).
  exists o, o'. do 2 eexists. split; [exact E|]. split; [exact E'|]. split; [exact Ho|]. split; [exact Ho'|].
  intros i j Li Lj. unfold conv_result. rewrite N.eqb_refl. f_equal. f_equal. unfold conv_terms. apply map_ext_in.
  intros ((x & y) & z) Hin. apply in_cells in Hin. destruct Hin as (Hx & Hy & Hz). destruct C as (Ek & Ti & Tj & _). f_equal.
  pose proof (tiles_bound _ _ _ _ _ _ Ti Li Hx) as B1. pose proof (tiles_bound _ _ _ _ _ _ Tj Lj Hy) as B2.
  rewrite Sh.
  - f_equal; lia.
  - split; [|split]; [lia|lia|]. rewrite Ek. exact Hz.
Qed.

Lemma softmax_mismatch {F} {AR : Arith F} (t o : tensor F) : tshape t <> tshape o -> softmax t o = Done o.
Proof. intros H. unfold softmax, get_shape. destruct (shape_eqb_spec (tshape t) (tshape o)); [contradiction|]. reflexivity. Qed.

Lemma softmax_value {F} {AR : Arith F} bm (t o : tensor F) s f : holds bm t s f -> shaped o s ->
  exists o', softmax t o = Done o' /\ holds bm o' s (fun i j k => fdiv (fexp (f i j k)) (sum (map (fun '(i, j, k) => fexp (f i j k)) (cells s)))).
Proof.
  intros Ht Ho. apply holds_iff in Ht. destruct Ht as (A & ->). pose proof (shaped_eq _ _ Ho) as (_ & ->). rewrite softmax_of_fun.
  eexists. split; [reflexivity|]. apply holds_of_fun. exact A.
Qed.
