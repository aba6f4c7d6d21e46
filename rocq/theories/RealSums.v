(** * Sums and derivatives over the reals *)
From Coq Require Import Reals Lra ZifyBool ZifyNat ZifyN.
From Verif Require Import Base Arith Helper Tensor Spec SpecReal Loops TensorFacts RealArith.
Local Open Scope R_scope.

Lemma sum_Rsum m l : @sum R (R_arith m) l = Rsum l.
Proof.
  unfold sum, Rsum. rewrite fold_symmetric; [reflexivity| |]; cbn; intros; ring.
Qed.

Lemma Rsum_cons x l : Rsum (x :: l) = x + Rsum l.
Proof. reflexivity. Qed.

Lemma Rsum_app l1 l2 : Rsum (l1 ++ l2) = Rsum l1 + Rsum l2.
Proof. induction l1 as [|x l1 IH]; cbn [app]; rewrite ?Rsum_cons; [cbn; ring|]. rewrite IH. ring. Qed.

Lemma Rsum_flat_map {A B} (f : B -> R) (g : A -> list B) l : Rsum (map f (flat_map g l)) = Rsum (map (fun x => Rsum (map f (g x))) l).
Proof. induction l as [|x l IH]; cbn [flat_map map]; [reflexivity|]. rewrite map_app, Rsum_app, IH. reflexivity. Qed.

Lemma Rsum_ext {A} (f g : A -> R) l : (forall x, In x l -> f x = g x) -> Rsum (map f l) = Rsum (map g l).
Proof. intros H. f_equal. apply map_ext_in. exact H. Qed.

Lemma Rsum_plus {A} (f g : A -> R) l : Rsum (map (fun x => f x + g x) l) = Rsum (map f l) + Rsum (map g l).
Proof. induction l as [|x l IH]; cbn [map]; rewrite ?Rsum_cons; [cbn; ring|]. rewrite IH. ring. Qed.

Lemma Rsum_scale {A} c (f : A -> R) l : Rsum (map (fun x => c * f x) l) = c * Rsum (map f l).
Proof. induction l as [|x l IH]; cbn [map]; rewrite ?Rsum_cons; [cbn; ring|]. rewrite IH. ring. Qed.

Lemma Rsum_scale_r {A} c (f : A -> R) l : Rsum (map (fun x => f x * c) l) = Rsum (map f l) * c.
Proof. induction l as [|x l IH]; cbn [map]; rewrite ?Rsum_cons; [cbn; ring|]. rewrite IH. ring. Qed.

Lemma Rsum_zero {A} (f : A -> R) l : (forall x, In x l -> f x = 0) -> Rsum (map f l) = 0.
Proof.
  induction l as [|x l IH]; intros H; cbn [map]; [reflexivity|]. rewrite Rsum_cons, IH, H; [ring|left; reflexivity|].
  intros; apply H; right; assumption.
Qed.

Lemma Rsum_swap {A B} (f : A -> B -> R) la lb :
  Rsum (map (fun a => Rsum (map (fun b => f a b) lb)) la) = Rsum (map (fun b => Rsum (map (fun a => f a b) la)) lb).
Proof.
  induction la as [|a la IH]; cbn [map].
  - symmetry. apply Rsum_zero. reflexivity.
  - rewrite Rsum_cons, IH. rewrite <- Rsum_plus. reflexivity.
Qed.

Lemma Rsum_nonneg {A} (f : A -> R) l : (forall x, In x l -> 0 <= f x) -> 0 <= Rsum (map f l).
Proof.
  induction l as [|x l IH]; intros H; cbn [map]; [cbn; lra|]. rewrite Rsum_cons.
  pose proof (H x (or_introl eq_refl)). assert (0 <= Rsum (map f l)) by (apply IH; intros; apply H; right; assumption). lra.
Qed.

Lemma Rsum_pos {A} (f : A -> R) l : l <> [] -> (forall x, In x l -> 0 < f x) -> 0 < Rsum (map f l).
Proof.
  destruct l as [|x l]; [congruence|]. intros _ H. cbn [map]. rewrite Rsum_cons.
  pose proof (H x (or_introl eq_refl)). assert (0 <= Rsum (map f l)) by (apply Rsum_nonneg; intros; left; apply H; right; assumption). lra.
Qed.

Lemma Rsum_zero_inv {A} (f : A -> R) l : (forall x, In x l -> 0 <= f x) -> Rsum (map f l) = 0 -> forall x, In x l -> f x = 0.
Proof.
  induction l as [|a l IH]; intros H E x Hx; [destruct Hx|]. cbn [map] in E. rewrite Rsum_cons in E.
  pose proof (H a (or_introl eq_refl)). assert (0 <= Rsum (map f l)) by (apply Rsum_nonneg; intros; apply H; right; assumption).
  destruct Hx as [<-|Hx]; [lra|]. apply IH; [intros; apply H; right; assumption|lra|exact Hx].
Qed.

(** One non-zero term. *)
Lemma Rsum_single {A} (f : A -> R) l a : NoDup l -> In a l -> (forall x, In x l -> x <> a -> f x = 0) -> Rsum (map f l) = f a.
Proof.
  induction l as [|x l IH]; intros ND Ha H; [destruct Ha|]. inversion ND as [|? ? Nx ND']; subst. cbn [map]. rewrite Rsum_cons.
  destruct Ha as [->|Ha].
  - rewrite Rsum_zero; [ring|]. intros y Hy. apply H; [right; exact Hy|]. intros ->. exact (Nx Hy).
  - rewrite IH; [|exact ND'|exact Ha|intros; apply H; [right|]; assumption]. rewrite (H x (or_introl eq_refl)); [ring|].
    intros ->. exact (Nx Ha).
Qed.

(** ** Derivatives *)
Lemma deriv_eq f x l l' : l = l' -> derivable_pt_lim f x l -> derivable_pt_lim f x l'.
Proof. intros ->. auto. Qed.

Lemma deriv_near f g x l d : 0 < d -> (forall t, Rabs (t - x) < d -> f t = g t) -> derivable_pt_lim f x l -> derivable_pt_lim g x l.
Proof.
  intros Hd E D eps He. destruct (D eps He) as (del & H). assert (Hm : 0 < Rmin del d) by (apply Rmin_pos; [apply cond_pos|exact Hd]).
  exists (mkposreal _ Hm). intros h Hh Hl. cbn [pos] in Hl.
  rewrite <- (E (x + h)), <- (E x).
  - apply H; [exact Hh|]. eapply Rlt_le_trans; [exact Hl|apply Rmin_l].
  - replace (x - x) with 0 by ring. rewrite Rabs_R0. exact Hd.
  - replace (x + h - x) with h by ring. eapply Rlt_le_trans; [exact Hl|apply Rmin_r].
Qed.

Lemma deriv_ext f g x l : (forall t, f t = g t) -> derivable_pt_lim f x l -> derivable_pt_lim g x l.
Proof. intros H. apply deriv_near with (d := 1); [lra|intros; apply H]. Qed.

Lemma deriv_plus f g x l1 l2 : derivable_pt_lim f x l1 -> derivable_pt_lim g x l2 -> derivable_pt_lim (fun t => f t + g t) x (l1 + l2).
Proof. exact (derivable_pt_lim_plus f g x l1 l2). Qed.

Lemma deriv_const c x : derivable_pt_lim (fun _ => c) x 0.
Proof. exact (derivable_pt_lim_const c x). Qed.

Lemma deriv_scale c f x l : derivable_pt_lim f x l -> derivable_pt_lim (fun t => c * f t) x (c * l).
Proof. exact (derivable_pt_lim_scal f c x l). Qed.

Lemma deriv_mult f g x l1 l2 : derivable_pt_lim f x l1 -> derivable_pt_lim g x l2 ->
  derivable_pt_lim (fun t => f t * g t) x (l1 * g x + f x * l2).
Proof. exact (derivable_pt_lim_mult f g x l1 l2). Qed.

Lemma deriv_sum {A} (l : list A) (f : A -> R -> R) (d : A -> R) x : (forall a, In a l -> derivable_pt_lim (f a) x (d a)) ->
  derivable_pt_lim (fun t => Rsum (map (fun a => f a t) l)) x (Rsum (map d l)).
Proof.
  induction l as [|a l IH]; intros H; cbn [map].
  - apply deriv_const.
  - rewrite Rsum_cons. apply (deriv_plus (f a) (fun t => Rsum (map (fun a => f a t) l))); [apply H; left; reflexivity|].
    apply IH. intros; apply H; right; assumption.
Qed.

(** A differentiable function keeps a strict inequality nearby. *)
Lemma deriv_above f x l c : derivable_pt_lim f x l -> c < f x -> exists d, 0 < d /\ forall t, Rabs (t - x) < d -> c < f t.
Proof.
  intros D H. assert (C : continuity_pt f x) by (apply derivable_continuous_pt; exists l; exact D).
  destruct (C (f x - c)) as (d & Hd & Hc); [lra|]. exists d. split; [exact Hd|]. intros t Ht.
  destruct (Req_dec x t) as [<-|Ne]; [exact H|].
  assert (A : Rabs (f t - f x) < f x - c). { apply (Hc t). split; [split; [exact I|exact Ne]|exact Ht]. }
  apply Rabs_def2 in A. lra.
Qed.

Lemma deriv_below f x l c : derivable_pt_lim f x l -> f x < c -> exists d, 0 < d /\ forall t, Rabs (t - x) < d -> f t < c.
Proof.
  intros D H. destruct (deriv_above (fun t => - f t) x (- l) (- c)) as (d & Hd & E).
  - apply (derivable_pt_lim_opp f x l D).
  - lra.
  - exists d. split; [exact Hd|]. intros t Ht. specialize (E t Ht). lra.
Qed.

Lemma deriv_less f g x l1 l2 : derivable_pt_lim f x l1 -> derivable_pt_lim g x l2 -> f x < g x ->
  exists d, 0 < d /\ forall t, Rabs (t - x) < d -> f t < g t.
Proof.
  intros D1 D2 H. destruct (deriv_above (fun t => g t - f t) x (l2 - l1) 0) as (d & Hd & E).
  - apply (derivable_pt_lim_minus g f x l2 l1 D2 D1).
  - lra.
  - exists d. split; [exact Hd|]. intros t Ht. specialize (E t Ht). lra.
Qed.

(** Finitely many neighbourhoods have a common one. *)
Lemma near_all {A} (l : list A) (P : A -> R -> Prop) x :
  (forall a, In a l -> exists d, 0 < d /\ forall t, Rabs (t - x) < d -> P a t) ->
  exists d, 0 < d /\ forall t, Rabs (t - x) < d -> forall a, In a l -> P a t.
Proof.
  induction l as [|a l IH]; intros H.
  - exists 1. split; [lra|]. intros t _ a [].
  - destruct (H a (or_introl eq_refl)) as (d1 & H1 & E1). destruct IH as (d2 & H2 & E2); [intros; apply H; right; assumption|].
    exists (Rmin d1 d2). split; [apply Rmin_pos; assumption|]. intros t Ht b [<-|Hb].
    + apply E1. eapply Rlt_le_trans; [exact Ht|apply Rmin_l].
    + apply E2; [|exact Hb]. eapply Rlt_le_trans; [exact Ht|apply Rmin_r].
Qed.

Lemma Rabs_Rsum {A} (f : A -> R) l : Rabs (Rsum (map f l)) <= Rsum (map (fun x => Rabs (f x)) l).
Proof.
  induction l as [|x l IH]; cbn [map]; [cbn; rewrite Rabs_R0; lra|]. rewrite !Rsum_cons. eapply Rle_trans; [apply Rabs_triang|]. lra.
Qed.
