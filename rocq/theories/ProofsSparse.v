(** * Proofs for C85: sparse weights *)
From Coq Require Import ZifyBool ZifyNat ZifyN.
From Flocq Require Import Core IEEE754.Binary IEEE754.Bits.
From Verif Require Import Base Arith Helper Tensor Convolution Network Float32 Spec SpecLayer SpecSparse Loops TensorFacts OpsFacts Float32Facts.
From Verif Require Import ProofsTensor ProofsConv ProofsPool ProofsFloat Layout LayerFacts ProofsLayer ProofsDense.
Local Open Scope N_scope.

(** ** Windows as sublists *)
Lemma filter_flat_map {A B} (P : B -> bool) (f : A -> list B) l : filter P (flat_map f l) = flat_map (fun a => filter P (f a)) l.
Proof. induction l as [|a l IH]; cbn [flat_map]; [reflexivity|]. rewrite filter_app, IH. reflexivity. Qed.

Lemma flat_map_filter {A B} (P : A -> bool) (f : A -> list B) l :
  (forall a, In a l -> P a = false -> f a = []) -> flat_map f l = flat_map f (filter P l).
Proof.
  induction l as [|a l IH]; intros H; cbn [flat_map filter]; [reflexivity|]. rewrite IH by (intros; apply H; [right|]; assumption).
  destruct (P a) eqn:E; [reflexivity|]. rewrite (H a (or_introl eq_refl) E). reflexivity.
Qed.

Lemma flat_map_map {A B C} (f : B -> list C) (g : A -> B) l : flat_map f (map g l) = flat_map (fun a => f (g a)) l.
Proof. induction l as [|a l IH]; cbn [flat_map map]; [reflexivity|]. rewrite IH. reflexivity. Qed.

Lemma flat_map_in {A B} (f g : A -> list B) l : (forall a, In a l -> f a = g a) -> flat_map f l = flat_map g l.
Proof. induction l as [|a l IH]; intros H; cbn [flat_map]; [reflexivity|]. rewrite H, IH by auto with datatypes. reflexivity. Qed.

Lemma map_flat_map {A B C} (f : B -> C) (g : A -> list B) l : map f (flat_map g l) = flat_map (fun a => map f (g a)) l.
Proof. induction l as [|a l IH]; cbn [flat_map map]; [reflexivity|]. rewrite map_app, IH. reflexivity. Qed.

Lemma filter_of_map {A B} (f : A -> B) P l : filter P (map f l) = map f (filter (fun a => P (f a)) l).
Proof. induction l as [|a l IH]; cbn [map filter]; [reflexivity|]. rewrite IH. destruct (P (f a)); reflexivity. Qed.

Lemma seq_window o e n : (o + e <= n)%nat ->
  filter (fun p => (o <=? p)%nat && (p <? o + e)%nat)%bool (seq 0 n) = map (fun a => (o + a)%nat) (seq 0 e).
Proof.
  intros H. replace n with (o + (e + (n - o - e)))%nat by lia. rewrite seq_app, seq_app, !filter_app, Nat.add_0_l.
  assert (Z : forall l (P : nat -> bool), (forall a, In a l -> P a = false) -> filter P l = []).
  { induction l as [|a l IH]; intros P Q; cbn; [reflexivity|]. rewrite (Q a) by (left; reflexivity). apply IH. intros; apply Q; right; assumption. }
  assert (O : forall l (P : nat -> bool), (forall a, In a l -> P a = true) -> filter P l = l).
  { induction l as [|a l IH]; intros P Q; cbn; [reflexivity|]. rewrite (Q a) by (left; reflexivity). f_equal. apply IH. intros; apply Q; right; assumption. }
  rewrite Z, O, Z.
  - cbn [app]. rewrite app_nil_r. clear. revert o. induction e as [|e IH]; intros o; [reflexivity|].
    rewrite seq_S, seq_S, map_app, IH. reflexivity.
  - intros a Ha. apply in_seq in Ha. lia.
  - intros a Ha. apply in_seq in Ha. lia.
  - intros a Ha. apply in_seq in Ha. lia.
Qed.

Lemma upto_window o e n : o + e <= n -> filter (fun p => (o <=? p) && (p <? o + e)) (upto n) = map (fun a => o + a) (upto e).
Proof.
  intros H. unfold upto. rewrite filter_of_map, map_map.
  transitivity (map N.of_nat (filter (fun p => (N.to_nat o <=? p)%nat && (p <? N.to_nat o + N.to_nat e)%nat) (seq 0 (N.to_nat n)))); [f_equal; apply filter_ext; intros a; lia|].
  rewrite seq_window by lia. rewrite map_map. apply map_ext. intros a. lia.
Qed.

Definition underb (ks : shape) (oi oj a b : N) : bool := ((oi <=? a) && (a <? oi + di ks)) && ((oj <=? b) && (b <? oj + dj ks)).

(** The cells of an image under a window, in storage order. *)
Lemma cells_window s ks oi oj : oi + di ks <= di s -> oj + dj ks <= dj s -> dk ks = dk s ->
  filter (fun '(a, b, c) => underb ks oi oj a b) (cells s) = map (fun '(a, b, c) => (oi + a, oj + b, c)) (cells ks).
Proof.
  intros Hi Hj Hk. unfold cells. rewrite filter_flat_map, map_flat_map, Hk. apply flat_map_in. intros k _.
  rewrite filter_flat_map, map_flat_map.
  rewrite (flat_map_filter (fun b => (oj <=? b) && (b <? oj + dj ks))).
  - rewrite upto_window, flat_map_map by exact Hj. apply flat_map_in. intros b Hb. apply in_upto in Hb.
    rewrite filter_of_map, map_map. rewrite <- (map_map (fun a => oi + a) (fun a => (a, oj + b, k))). f_equal.
    rewrite <- (upto_window oi (di ks) (di s) Hi). apply filter_ext. intros a. unfold underb. lia.
  - intros b _ E. rewrite filter_of_map. unfold underb. rewrite E. induction (upto (di s)) as [|a l IH]; cbn; [reflexivity|]. rewrite andb_false_r. exact IH.
Qed.

(** ** Adding zeros *)
Lemma zero_mul e x y : zero x -> finite y -> zero (f32_mul e x y) /\ zero (f32_mul e y x).
Proof.
  intros (s & ->) F. destruct y as [t|t|t p H|t m ex H]; try discriminate; split; eexists; reflexivity.
Qed.

Lemma add_zero_r e x z : x <> neg_zero -> zero z -> same (f32_add e x z) x.
Proof.
  intros N (s & ->). destruct x as [t|t|t p H|t m ex H].
  - destruct t; [elim N; reflexivity|]. destruct s; left; reflexivity.
  - left; reflexivity.
  - right. split; [apply add_nan_l|]; reflexivity.
  - left. reflexivity.
Qed.

Lemma same_sym x y : same x y -> same y x.
Proof. intros [->|[A B]]; [left; reflexivity|right; auto]. Qed.
Lemma same_trans x y z : same x y -> same y z -> same x z.
Proof. intros [->|[A B]] [->|[C D]]; try (left; reflexivity); right; auto. Qed.

Section Sparse.
Context (e : env).
#[local] Hint Extern 0 (Arith f32) => exact (f32_arith e) : typeclass_instances.
#[local] Hint Extern 0 (Arith binary32) => exact (f32_arith e) : typeclass_instances.

Lemma fold_drop {A} (f : A -> f32) P l : (forall a, In a l -> P a = false -> zero (f a)) -> forall x y, x <> neg_zero -> same x y ->
  same (fold_left (f32_add e) (map f l) x) (fold_left (f32_add e) (map f (filter P l)) y).
Proof.
  induction l as [|a l IH]; intros H x y N S; cbn [map filter fold_left]; [exact S|].
  assert (N' : f32_add e x (f a) <> neg_zero) by (apply add_not_neg_zero; exact N).
  destruct (P a) eqn:E; cbn [map fold_left]; (apply IH; [intros; apply H; [right|]; assumption|exact N'|]).
  - apply add_same; [exact S|apply same_refl].
  - eapply same_trans; [apply add_zero_r; [exact N|]|exact S]. apply H; [left; reflexivity|exact E].
Qed.

(** Two sums whose terms are the same or both zero. *)
Lemma fold_zeros {A} (f g : A -> f32) l : (forall a, In a l -> same (f a) (g a) \/ zero (f a) /\ zero (g a)) -> forall x y, x <> neg_zero -> y <> neg_zero -> same x y ->
  same (fold_left (f32_add e) (map f l) x) (fold_left (f32_add e) (map g l) y).
Proof.
  induction l as [|a l IH]; intros H x y N M S; cbn [map fold_left]; [exact S|].
  apply IH; [intros; apply H; right; assumption|apply add_not_neg_zero; exact N|apply add_not_neg_zero; exact M|].
  destruct (H a (or_introl eq_refl)) as [Q|(Z1 & Z2)]; [apply add_same; assumption|].
  eapply same_trans; [apply add_zero_r; assumption|]. eapply same_trans; [exact S|]. apply same_sym, add_zero_r; assumption.
Qed.

Lemma zero_not_neg : f32_zero <> neg_zero.
Proof. discriminate. Qed.

Lemma ignored_inputs bm (l : fc_layer f32) m n (w b x x' : N -> N -> N -> f32) (X X' Y0 : tensor f32) :
  let AR := f32_arith e in
  fc_ok m n l -> holds bm (fc_weights l) (mkShape m n 1) w -> holds bm (fc_bias l) (mkShape m 1 1) b ->
  holds bm X (mkShape n 1 1) x -> holds bm X' (mkShape n 1 1) x' -> shaped Y0 (mkShape m 1 1) ->
  (forall p, p < n -> x p 0 0 = x' p 0 0 \/ finite (x p 0 0) /\ finite (x' p 0 0) /\ forall i, i < m -> zero (w i p 0)) ->
  exists l1 l2 Y, fc_forward bm l X Y0 = Done (l1, Y, Ok tt) /\ fc_forward bm l X' Y0 = Done (l2, Y, Ok tt).
Proof.
  intros AR O Hw Hb Hx Hx' S0 H.
  destruct (@fc_forward_holds f32 (f32_arith e) bm l m n w b x X Y0 (f32_relu_agrees e) O Hw Hb Hx S0) as (l1 & Y & E1 & H1).
  destruct (@fc_forward_holds f32 (f32_arith e) bm l m n w b x' X' Y0 (f32_relu_agrees e) O Hw Hb Hx' S0) as (l2 & Y' & E2 & H2).
  exists l1, l2, Y. split; [exact E1|]. assert (Q : Y = Y'); [|rewrite Q; exact E2].
  eapply (@holds_eq f32 (f32_arith e)); [exact H1|exact H2|]. intros i j k (Hi & _). cbn [di] in Hi.
  apply relu_same. apply add_same; [|apply same_refl]. apply fold_zeros; try exact zero_not_neg; [|apply same_refl].
  intros p Hp. apply in_upto in Hp. destruct (H p Hp) as [-> | (F1 & F2 & Z)]; [left; apply same_refl|right].
  split; [apply (proj1 (zero_mul e _ _ (Z i Hi) F1))|apply (proj1 (zero_mul e _ _ (Z i Hi) F2))].
Qed.

Lemma conv_sparse bm (lc : conv_layer f32) (lf : fc_layer f32) ks ins outs m n (h : N -> N -> N -> N -> f32) (bv : N -> f32)
    (w b x x' : N -> N -> N -> f32) (X X' Yc Yf : tensor f32) :
  let AR := f32_arith e in
  cv_input_shape lc = ins -> cv_output_shape lc = outs -> n = di ins * dj ins * dk ins -> m = di outs * dj outs * dk outs ->
  conv_layer_ok ks lc -> all_hold bm (cv_kernels lc) ks h ->
  (forall k t, nth_error (cv_biases lc) (N.to_nat k) = Some t -> get_item bm t (mkIndex 0 0 0) = Done (bv k)) ->
  fc_ok m n lf -> holds bm (fc_weights lf) (mkShape m n 1) w -> holds bm (fc_bias lf) (mkShape m 1 1) b ->
  (forall i j k a c d, in_shape outs i j k -> in_shape ks a c d ->
     w (flat outs i j k) (flat ins (i * cv_stride lc + a) (j * cv_stride lc + c) d) 0 = h k a c d) ->
  (forall i j k a c d, in_shape outs i j k -> in_shape ins a c d -> ~ under ks (cv_stride lc) i j a c ->
     zero (w (flat outs i j k) (flat ins a c d) 0)) ->
  (forall i j k, in_shape outs i j k -> b (flat outs i j k) 0 0 = bv k) ->
  holds bm X ins x -> holds bm X' (mkShape n 1 1) x' ->
  (forall i j k, in_shape ins i j k -> x' (flat ins i j k) 0 0 = x i j k /\ finite (x i j k)) ->
  shaped Yc outs -> shaped Yf (mkShape m 1 1) ->
  exists lc' lf' Y Y', cv_forward bm lc X Yc = Done (lc', Y, Ok tt) /\ fc_forward bm lf X' Yf = Done (lf', Y', Ok tt)
    /\ tshape Y = outs /\ tshape Y' = mkShape m 1 1 /\ data Y = data Y'.
Proof.
  intros AR Is Os En Em Oc Hk Hb Of Hw Hbf Ew Ez Eb Hx Hx' Ex Sc Sf.
  assert (Hxc : holds bm X (cv_input_shape lc) x) by (rewrite Is; exact Hx). assert (Sc' : shaped Yc (cv_output_shape lc)) by (rewrite Os; exact Sc).
  destruct (@conv_forward_holds f32 (f32_arith e) bm ks lc h bv x X Yc (f32_relu_agrees e) Oc Hk Hb Hxc Sc') as (lc' & Y & E1 & H1).
  destruct (@fc_forward_holds f32 (f32_arith e) bm lf m n w b x' X' Yf (f32_relu_agrees e) Of Hw Hbf Hx' Sf) as (lf' & Y' & E2 & H2).
  exists lc', lf', Y, Y'. split; [exact E1|]. split; [exact E2|].
  rewrite Os in H1. apply holds_iff in H1. destruct H1 as (A1 & ->). apply holds_iff in H2. destruct H2 as (A2 & ->).
  do 2 (split; [reflexivity|]). cbn [of_fun data]. rewrite column_cells, Em, upto_cells, !map_map. apply map_ext_in.
  intros [[i j] k] Hc. apply in_cells in Hc. cbv beta iota.
  apply relu_same. rewrite (Eb i j k Hc). apply add_same; [|apply same_refl]. apply same_sym.
  destruct Oc as (_ & _ & _ & _ & _ & _ & P & _). rewrite Is, Os in P. destruct (P k) as (Dk & T0 & T1 & _); [exact (proj2 (proj2 Hc))|].
  destruct Hc as (Hi & Hj & Hk0). pose proof (tiles_start _ _ _ _ _ T0 Hi) as B0. pose proof (tiles_start _ _ _ _ _ T1 Hj) as B1.
  destruct T0 as (_ & L0 & _), T1 as (_ & L1 & _). set (st := cv_stride lc) in *.
  unfold sum. rewrite En, upto_cells, map_map.
  eapply same_trans; [apply (fold_drop _ (fun '(a, c, d) => underb ks (i * st) (j * st) a c)); [|exact zero_not_neg|apply same_refl]|].
  - intros [[a c] d] Hin U. apply in_cells in Hin. destruct (Ex a c d Hin) as (-> & Fx).
    refine (proj1 (zero_mul e _ _ _ Fx)). apply Ez; [repeat split; assumption|exact Hin|]. unfold under, underb in *. lia.
  - rewrite cells_window by (assumption || lia || auto). unfold window_products. rewrite map_map. apply fold_same; [|apply same_refl].
    apply Forall2_map_in. intros [[a c] d] Hin. apply in_cells in Hin. cbv beta iota.
    rewrite Ew by (assumption || (repeat split; assumption)).
    destruct Hin as (Ha & Hc & Hd). rewrite (proj1 (Ex (i * st + a) (j * st + c) d ltac:(repeat split; lia))). apply mul_comm_same.
Qed.

End Sparse.
