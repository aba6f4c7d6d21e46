(** * relu and max pooling commute, bit for bit *)
From Coq Require Import Reals Lra.
From Verif Require Import Base Arith Helper Tensor Network Spec SpecLayer Loops TensorFacts OpsFacts ProofsTensor ProofsConv LayerFacts ProofsPool ProofsNetError Float32 Float32Facts.
Local Open Scope N_scope.

Section ReluPool.
Context (e : env).
#[local] Hint Extern 0 (Arith f32) => exact (f32_arith e) : typeclass_instances.

Lemma relu_pick (m x : f32) : isnan m = false -> isnan (pick_max m x) = false /\ relu (pick_max m x) = pick_max (relu m) (relu x).
Proof.
  intros N. unfold pick_max. change (@fgtb f32 _) with f32_gtb.
  destruct (f32_gtb x m) eqn:G.
  - apply gtb_true in G. destruct G as (Nx & _ & G). split; [exact Nx|].
    destruct (f32_gtb x f32_zero) eqn:X.
    + assert (P : f32_gtb (relu x) (relu m) = true); [|rewrite P; reflexivity]. unfold relu at 1. rewrite X.
      unfold relu. destruct (f32_gtb m f32_zero); [apply gtb_true; auto|exact X].
    + assert (M : f32_gtb m f32_zero = false).
      { apply Bool.not_true_is_false. intros M. apply gtb_true in M. destruct M as (_ & _ & M). apply Bool.not_true_iff_false in X. apply X.
        apply gtb_true. repeat split; [exact Nx|]. lra. }
      unfold relu. rewrite X, M. destruct (f32_gtb f32_zero f32_zero); reflexivity.
  - split; [exact N|]. assert (P : f32_gtb (relu x) (relu m) = false); [|rewrite P; reflexivity].
    apply Bool.not_true_is_false. intros P. apply gtb_true in P. destruct P as (_ & _ & P). pose proof (relu_nonneg m).
    unfold relu in P at 2. destruct (f32_gtb x f32_zero) eqn:X; [|cbn in P; lra].
    apply gtb_true in X. destruct X as (Nx & _ & X). apply Bool.not_true_iff_false in G. apply G. apply gtb_true. repeat split; [exact Nx|exact N|].
    unfold relu in P. destruct (f32_gtb m f32_zero) eqn:M; [exact P|].
    apply Rnot_le_lt. intros L. apply Bool.not_true_iff_false in M. apply M. apply gtb_true. repeat split; [exact N|]. lra.
Qed.

Lemma relu_picks (l : list f32) : forall m : f32, isnan m = false -> relu (fold_left pick_max l m) = fold_left pick_max (map relu l) (relu m).
Proof.
  induction l as [|x l IH]; intros m N; cbn [fold_left map]; [reflexivity|]. destruct (relu_pick m x N) as (N' & <-). apply IH. exact N'.
Qed.

(** From minus infinity, over at least one value. *)
Lemma relu_max (l : list f32) : l <> [] -> relu (fold_left pick_max l f32_ninf) = fold_left pick_max (map relu l) f32_ninf.
Proof.
  destruct l as [|x l]; [congruence|]. intros _. cbn [fold_left map]. destruct (relu_pick f32_ninf x eq_refl) as (N' & E).
  rewrite relu_picks by exact N'. f_equal. rewrite E. unfold pick_max. change (@fgtb f32 _) with f32_gtb.
  assert (P : f32_gtb (relu x) f32_ninf = true).
  { apply gtb_true. split; [apply relu_not_nan|]. split; [reflexivity|]. pose proof (relu_nonneg x). pose proof inf_pos. cbn. lra. }
  rewrite P. destruct (f32_gtb (relu x) (relu f32_ninf)) eqn:Q; [reflexivity|].
  change (relu f32_ninf) with f32_zero in *. unfold relu in Q |- *. destruct (f32_gtb x f32_zero) eqn:X; [congruence|reflexivity].
Qed.

Lemma relu_pool bm (image m1 r m2 : tensor f32) s rs mask stride :
  shaped image s -> shaped m1 s -> shaped r rs -> shaped m2 rs -> pool_ok s mask stride rs -> 0 < di mask -> 0 < dj mask ->
  exists image' m1' a m2' b, relu_self_and_store_mask image m1 = (image', m1', Ok tt) /\ max_pool bm image' mask stride r = Done a
    /\ max_pool bm image mask stride r = Done b /\ relu_self_and_store_mask b m2 = (a, m2', Ok tt).
Proof.
  intros H1 H2 H3 H4 P Mi Mj. apply (shaped_holds bm) in H1, H2, H3, H4. holds_start.
  assert (C : check_max_pooling_dimensions bm s mask stride rs = Done true) by (apply check_pool_complete; [apply u32_shape_alloc; assumption|exact P]).
  rewrite relu_mask_of_fun. do 5 eexists. split; [reflexivity|]. split; [apply max_pool_of_fun; assumption|].
  split; [apply max_pool_of_fun; assumption|]. rewrite relu_mask_of_fun. f_equal. f_equal. apply of_fun_ext. intros i j k _.
  change (relu (pool_fn (di mask) (dj mask) stride (val image) i j k) = pool_fn (di mask) (dj mask) stride (fun i j k => relu (val image i j k)) i j k).
  unfold pool_fn. change (@fninf f32 _) with f32_ninf. rewrite relu_max.
  - f_equal. unfold window. rewrite !flat_map_concat_map, concat_map, map_map. f_equal. apply map_ext. intros jj. rewrite map_map. reflexivity.
  - rewrite window_eq. unfold window_values. intros E. apply map_eq_nil in E. exact (window_nonempty _ _ _ _ _ _ Mi Mj E).
Qed.

End ReluPool.
