(** * Proofs for C10, C14, C23, C45, C48 (f32 part) *)
From Coq Require Import Reals Lra ZifyBool ZifyNat ZifyN.
From Flocq Require Import Core BinarySingleNaN IEEE754.Binary.
From Verif Require Import Base Arith Helper Tensor Convolution Network Spec Loops TensorFacts OpsFacts ProofsTensor ProofsConv.
From Verif Require Import Float32 Float32Facts SpecF32.
Ltac Zify.zify_post_hook ::= Z.div_mod_to_equations.

(** ** relu *)
Lemma relu_f32 e x : @Spec.relu f32 (f32_arith e) x = Float32Facts.relu x.
Proof. reflexivity. Qed.

Lemma sum_not_neg_zero e l : @sum f32 (f32_arith e) l <> neg_zero.
Proof. apply fold_not_neg_zero. discriminate. Qed.

Lemma f32_relu_agrees e : @relu_agrees f32 (f32_arith e).
Proof.
  intros l b. rewrite relu_f32. cbn [fmax fadd fzero f32_arith]. apply max_relu.
  apply add_not_neg_zero. apply sum_not_neg_zero.
Qed.

(** Sums under two NaN environments. *)
Lemma sum_same e1 e2 l l' : Forall2 same l l' -> same (@sum f32 (f32_arith e1) l) (@sum f32 (f32_arith e2) l').
Proof. intros H. apply fold_same; [exact H|apply same_refl]. Qed.

Lemma Forall2_map_same {X} (f g : X -> f32) l : (forall x, same (f x) (g x)) -> Forall2 same (map f l) (map g l).
Proof. intros H. induction l; simpl; constructor; auto. Qed.

Lemma dot_same e1 e2 {X} (a b : X -> f32) l :
  same (@sum f32 (f32_arith e1) (map (fun x => @fmul f32 (f32_arith e1) (a x) (b x)) l))
       (@sum f32 (f32_arith e2) (map (fun x => @fmul f32 (f32_arith e2) (a x) (b x)) l)).
Proof. apply sum_same. apply Forall2_map_same. intros x. apply mul_env. Qed.

(** ** C10 *)
Lemma fused_unfused e1 e2 bm (input weights bias r mask : tensor f32) :
  wf input -> wf weights -> wf bias -> wf r -> wf mask ->
  mm_shapes (tshape weights) (tshape input) (tshape r) -> tshape bias = tshape r -> tshape mask = tshape r ->
  exists p out m,
    @matrix_multiply bm f32 (f32_arith e1) weights input r = Done p
    /\ @relu_self_and_store_mask f32 (f32_arith e1) (@add_to_self f32 (f32_arith e1) p bias) mask = (out, m, Ok tt)
    /\ @matrix_multiply_add_relu bm f32 (f32_arith e2) input weights bias r = Done out.
Proof.
  intros W1 W2 W3 W4 W5 S Eb Em. apply mm_shapes_check in S.
  destruct (@wf_ex f32 (f32_arith e1) input W1) as (si & fi & A1 & ->).
  destruct (@wf_ex f32 (f32_arith e1) weights W2) as (sw & fw & A2 & ->).
  destruct (@wf_ex f32 (f32_arith e1) bias W3) as (sb & fb & A3 & ->).
  destruct (@wf_ex f32 (f32_arith e1) r W4) as (sr & g & A4 & ->).
  destruct (@wf_ex f32 (f32_arith e1) mask W5) as (sm & fm & A5 & ->).
  cbn [tshape of_fun] in *. subst sb sm.
  rewrite matrix_multiply_of_fun by assumption. eexists. eexists. eexists. split; [reflexivity|].
  rewrite add_to_self_of_fun, relu_mask_of_fun. split; [reflexivity|].
  rewrite matrix_multiply_add_relu_of_fun by (assumption || reflexivity). f_equal. apply of_fun_ext.
  intros i j k _. unfold mm_fn at 1. rewrite (f32_relu_agrees e2), relu_f32.
  change (Float32Facts.relu (f32_add e2 (@mm_fn f32 (f32_arith e2) (dj sw) fw fi i j k) (fb i j k))
          = Float32Facts.relu (f32_add e1 (@mm_fn f32 (f32_arith e1) (dj sw) fw fi i j k) (fb i j k))).
  apply relu_same. apply add_same; [|apply same_refl]. apply (dot_same e2 e1).
Qed.

Lemma fused_mismatch {F} {AR : Arith F} bm (input weights bias r : tensor F) :
  ~ mm_shapes (tshape weights) (tshape input) (tshape r) \/ tshape bias <> tshape r ->
  matrix_multiply_add_relu bm input weights bias r = Done r.
Proof.
  intros H. unfold matrix_multiply_add_relu, get_shape. destruct H as [H|H].
  - rewrite mm_shapes_check_false by exact H. reflexivity.
  - destruct (check_matrix_multiply_dimensions _ _ _); [|reflexivity].
    destruct (shape_eqb_spec (tshape bias) (tshape r)); [contradiction|reflexivity].
Qed.

(** ** C23 *)
Lemma relu_mask_spec e bm (input mask : tensor f32) s f sm g :
  @holds f32 (f32_arith e) bm input s f -> @holds f32 (f32_arith e) bm mask sm g ->
  (s = sm -> exists out m, @relu_self_and_store_mask f32 (f32_arith e) input mask = (out, m, Ok tt)
     /\ @holds f32 (f32_arith e) bm out s (fun i j k => if f32_gtb (f i j k) f32_zero then f i j k else f32_zero)
     /\ @holds f32 (f32_arith e) bm m s (fun i j k => if f32_gtb (f i j k) f32_zero then f32_one else f32_zero))
  /\ (s <> sm -> exists msg, @relu_self_and_store_mask f32 (f32_arith e) input mask = (input, mask, Err msg)).
Proof.
  intros Hi Hm. apply holds_iff in Hi. apply holds_iff in Hm. destruct Hi as (A1 & ->), Hm as (A2 & ->). split.
  - intros ->. rewrite relu_mask_of_fun. do 2 eexists. split; [reflexivity|]. split; apply holds_of_fun; assumption.
  - intros D. unfold relu_self_and_store_mask, get_shape. cbn [tshape of_fun].
    destruct (shape_eqb_spec s sm); [contradiction|]. eexists; reflexivity.
Qed.

Lemma relu_value x : let y := if f32_gtb x f32_zero then x else f32_zero in
  isnan y = false /\ f32_gtb f32_zero y = false.
Proof.
  cbv zeta. change (isnan (Float32Facts.relu x) = false /\ f32_gtb f32_zero (Float32Facts.relu x) = false).
  split; [apply relu_not_nan|]. apply gtb_false; [reflexivity|apply relu_not_nan|]. apply relu_nonneg.
Qed.

(** ** C45 *)
Section Equality.
Context {F : Type} {AR : Arith F}.

Lemma data_eqb_Forall2 (a b : list F) : data_eqb a b = true <-> Forall2 (fun x y => feqb x y = true) a b.
Proof.
  revert b; induction a as [|x a IH]; intros [|y b]; simpl; split; intros H; try discriminate; try constructor; try (inversion H; fail).
  - apply andb_true_iff in H. apply H.
  - apply IH. apply andb_true_iff in H. apply H.
  - inversion H; subst. apply andb_true_iff. split; [assumption|]. apply IH. assumption.
Qed.

Lemma tensor_eqb_true (a b : tensor F) :
  tensor_eqb a b = true <-> tshape a = tshape b /\ Forall2 (fun x y => feqb x y = true) (data a) (data b).
Proof.
  unfold tensor_eqb. destruct (shape_eqb_spec (tshape a) (tshape b)) as [E|E]; cbn [negb].
  - destruct (data_eqb (data a) (data b)) eqn:D; cbn [negb].
    + rewrite data_eqb_Forall2 in D. tauto.
    + split; [discriminate|]. intros (_ & H). apply data_eqb_Forall2 in H. congruence.
  - split; [discriminate|]. intros (H & _). contradiction.
Qed.

Lemma Forall2_nth {A B} (R : A -> B -> Prop) la lb n da db :
  Forall2 R la lb -> (n < length la)%nat -> R (nth n la da) (nth n lb db).
Proof.
  intros H. revert n. induction H; intros [|n] L; simpl in *; try lia; [assumption|]. apply IHForall2. lia.
Qed.

Lemma Forall2_of_nth {A B} (R : A -> B -> Prop) la lb da db :
  length la = length lb -> (forall n, (n < length la)%nat -> R (nth n la da) (nth n lb db)) -> Forall2 R la lb.
Proof.
  revert lb. induction la as [|a la IH]; intros [|b lb] L H; simpl in *; try discriminate; constructor.
  - apply (H 0%nat). lia.
  - apply IH; [lia|]. intros n Hn. apply (H (S n)). lia.
Qed.

Lemma tensor_eqb_items bm (a b : tensor F) : wf a -> wf b ->
  (tensor_eqb a b = true <->
   tshape a = tshape b /\ forall i j k, in_shape (tshape a) i j k ->
      exists x y, get_item bm a (mkIndex i j k) = Done x /\ get_item bm b (mkIndex i j k) = Done y /\ feqb x y = true).
Proof.
  intros Wa Wb. rewrite tensor_eqb_true. split; intros (E & H); split; try exact E.
  - intros i j k Hin. exists (val a i j k), (val b i j k).
    rewrite !get_item_wf by assumption. rewrite <- E. destruct (in_shapeb_spec (tshape a) i j k); [|contradiction].
    split; [reflexivity|]. split; [reflexivity|]. unfold val. rewrite <- E. apply Forall2_nth with (R := fun x y => feqb x y = true); [exact H|].
    pose proof (flat_lt _ _ _ _ Hin). apply len_data_wf in Wa. unfold len in Wa. lia.
  - pose proof (len_data_wf a Wa) as La. pose proof (len_data_wf b Wb) as Lb. unfold len in *.
    apply Forall2_of_nth with (da := fzero) (db := fzero); [rewrite <- E in Lb; lia|].
    intros n Hn. destruct (flat_surj (tshape a) (N.of_nat n)) as (i & j & k & Hin & Ef); [lia|].
    destruct (H i j k Hin) as (x & y & Ex & Ey & Exy).
    rewrite get_item_wf in Ex, Ey by assumption. rewrite <- E in Ey.
    destruct (in_shapeb_spec (tshape a) i j k); [|contradiction]. injection Ex as <-. injection Ey as <-.
    unfold val in Exy. rewrite <- E, Ef, Nnat.Nat2N.id in Exy. exact Exy.
Qed.

Lemma tensor_eqb_strides st st' s d (b : tensor F) :
  tensor_eqb (mkTensor st s d) b = tensor_eqb (mkTensor st' s d) b
  /\ tensor_eqb b (mkTensor st s d) = tensor_eqb b (mkTensor st' s d).
Proof. split; reflexivity. Qed.

End Equality.

Lemma f32_tensor_eqb_sym e (a b : tensor f32) :
  @tensor_eqb f32 (f32_arith e) a b = @tensor_eqb f32 (f32_arith e) b a.
Proof.
  assert (H : forall a b : tensor f32, @tensor_eqb f32 (f32_arith e) a b = true -> @tensor_eqb f32 (f32_arith e) b a = true).
  { clear a b. intros a b H. apply tensor_eqb_true in H. apply tensor_eqb_true. destruct H as (E & H). split; [congruence|].
    clear E. induction H; constructor; auto. cbn [feqb f32_arith] in *. rewrite eqb_sym. assumption. }
  apply eq_true_iff_eq. split; apply H.
Qed.

Lemma f32_tensor_eqb_trans e (a b c : tensor f32) :
  @tensor_eqb f32 (f32_arith e) a b = true -> @tensor_eqb f32 (f32_arith e) b c = true ->
  @tensor_eqb f32 (f32_arith e) a c = true.
Proof.
  rewrite !tensor_eqb_true. intros (E1 & H1) (E2 & H2). split; [congruence|].
  clear E1 E2. revert H2. generalize (data c). induction H1 as [|x y la lb Hxy _ IH]; intros lc H2; inversion H2; subst; constructor.
  - cbn [feqb f32_arith] in *. rewrite eqb_true in *. intuition congruence.
  - apply IH. assumption.
Qed.

Lemma f32_tensor_eqb_refl e (a : tensor f32) :
  @tensor_eqb f32 (f32_arith e) a a = true <-> forall x, In x (data a) -> isnan x = false.
Proof.
  rewrite tensor_eqb_true. split.
  - intros (_ & H). induction (data a) as [|x l IH]; intros y [].
    + subst y. inversion H; subst. cbn [feqb f32_arith] in *. rewrite eqb_refl in *. now apply negb_true_iff.
    + apply IH; [|assumption]. inversion H; assumption.
  - intros H. split; [reflexivity|]. induction (data a) as [|x l IH]; constructor.
    + cbn [feqb f32_arith]. rewrite eqb_refl. apply negb_true_iff. apply H. left; reflexivity.
    + apply IH. intros y Hy. apply H. right; exact Hy.
Qed.

(** ** C48, f32 part *)
Lemma sqrt_not_negative e x : f32_gtb f32_zero (f32_sqrt e x) = false.
Proof.
  destruct (f32_gtb f32_zero (f32_sqrt e x)) eqn:G; [|reflexivity]. exfalso.
  apply gtb_true in G. destruct G as (_ & N & G). cbn [rank f32_zero B2R] in G.
  pose proof (Bsqrt_correct 24 128 f32_prec f32_emax (nan_sqrt e) BinarySingleNaN.mode_NE x) as (C1 & C2 & _).
  change (Bsqrt 24 128 f32_prec f32_emax (nan_sqrt e) BinarySingleNaN.mode_NE x) with (f32_sqrt e x) in *.
  destruct (is_finite 24 128 (f32_sqrt e x)) eqn:Fi.
  - rewrite rank_finite in G by exact Fi. rewrite C1 in G.
    assert (0 <= round radix2 (SpecFloat.fexp 24 128) (round_mode BinarySingleNaN.mode_NE) (sqrt (B2R 24 128 x)))%R; [|lra].
    apply round_ge_generic; [apply (fexp_correct 24 128), f32_prec|apply valid_rnd_round_mode|apply generic_format_0|apply sqrt_pos].
  - destruct x as [s|s|s p Hp|s m ex Hb]; try discriminate; destruct s; try discriminate.
    + unfold rank in G. cbn in G. pose proof inf_pos. lra.
Qed.

Lemma norm_not_negative e (t : tensor f32) : f32_gtb f32_zero (@get_norm f32 (f32_arith e) t) = false.
Proof. apply sqrt_not_negative. Qed.
