(** * Receptive fields *)
From Coq Require Import ZifyBool ZifyNat ZifyN.
From Verif Require Import Base Arith Helper Tensor Convolution Network Bincode Serial Spec SpecLayer SpecNet SpecField.
From Verif Require Import Loops TensorFacts OpsFacts ProofsTensor LayerFacts NetFacts NetRun ProofsJoin ProofsNetError.
Local Open Scope N_scope.

Section Facts.
Context {F : Type} {AR : Arith F} {BT : Bits F}.
Notation T := (tensor F).
Hypothesis RA : relu_agrees F.

Lemma infer_output bm (n : network F) (X : T) : well_built bm n -> layers n <> [] -> shaped X (net_input_shape n) ->
  exists n1 Y, infer bm n X = Done (n1, Ok tt) /\ get_output n1 = Done (Ok Y) /\ shaped Y (net_output_shape n)
    /\ composes bm (map params_of (layers n)) X Y.
Proof.
  intros W NE (WX & SX). pose proof (built_ok bm n RA W) as O.
  destruct (infer_ok bm n X RA O NE WX SX) as (n1 & Y & E1 & O1 & I1 & G1 & C1). exists n1, Y. do 2 (split; [assumption|]). split; [|exact C1].
  rewrite <- (proj1 (proj2 (proj2 (proj2 (infer_kept _ _ _ _ _ E1))))). apply (output_shaped n1 Y O1); [|exact G1].
  intros Q. rewrite Q in I1. destruct (layers n); [congruence|discriminate I1].
Qed.

(** The inputs in the two fields agree. *)
Definition agree (s s' : shape) (x x' : N -> N -> N -> F) (a b i j i' j' : N) : Prop :=
  forall p q c, p < a -> q < b -> in_shape s (i + p) (j + q) c -> in_shape s' (i' + p) (j' + q) c -> x (i + p) (j + q) c = x' (i' + p) (j' + q) c.

Lemma one_layer bm p p' (X X' Y Y' : T) s s' r r' x x' y y' i j i' j' ei ej stride :
  alike p p' -> computes bm p X Y -> computes bm p' X' Y' ->
  holds bm X s x -> holds bm X' s' x' -> holds bm Y r y -> holds bm Y' r' y' ->
  match p with
  | PConv kernels _ st _ _ => st = stride /\ (forall k, In k kernels -> di (tshape k) = ei /\ dj (tshape k) = ej)
  | PMaxPool _ mask _ st => st = stride /\ di mask = ei /\ dj mask = ej
  | _ => True
  end ->
  agree s s' x x' ei ej (i * stride) (j * stride) (i' * stride) (j' * stride) ->
  forall k, in_shape r i j k -> in_shape r' i' j' k -> y i j k = y' i' j' k.
Proof.
  intros A C C' HX HX' HY HY' M Ag k Hin Hin'. destruct A as [kernels biases st ins outs ins' outs'|ins mask outs ins' mask' outs' st Ei Ej].
  - inversion C as [|? ? ? ? ? ks h bv ? x0 ? Hk Dk Lb Hb Cok HX0 HY0| |]; subst. inversion C' as [|? ? ? ? ? ks' h' bv' ? x0' ? Hk' Dk' Lb' Hb' Cok' HX0' HY0'| |]; subst.
    destruct M as (-> & Me).
    pose proof (holds_shape _ _ _ _ _ _ HX HX0) as ->. pose proof (holds_shape _ _ _ _ _ _ HX' HX0') as ->.
    pose proof (holds_shape _ _ _ _ _ _ HY HY0) as ->. pose proof (holds_shape _ _ _ _ _ _ HY' HY0') as ->.
    pose proof Hin as (Hi & Hj & Hc). pose proof Hin' as (Hi' & Hj' & Hc').
    rewrite (holds_fun _ _ _ _ _ HY HY0 i j k Hin), (holds_fun _ _ _ _ _ HY' HY0' i' j' k Hin').
    destruct (nth_error kernels (N.to_nat k)) as [t|] eqn:Nt; [|exfalso; apply nth_error_None in Nt; unfold len in *; lia].
    pose proof (Hk k t Nt) as Ht. pose proof (Hk' k t Nt) as Ht'. pose proof (holds_shape _ _ _ _ _ _ Ht Ht') as <-.
    destruct (Me t (nth_error_In _ _ Nt)) as (<- & <-). replace (tshape t) with ks in Ag by (symmetry; apply Ht).
    destruct (nth_error biases (N.to_nat k)) as [bt|] eqn:Nb; [|exfalso; apply nth_error_None in Nb; unfold len in *; lia].
    pose proof (Hb k bt Nb) as B. pose proof (Hb' k bt Nb) as B'. rewrite B in B'. injection B' as <-.
    f_equal. f_equal. f_equal. unfold window_products. apply map_ext_in. intros ((ki & kj) & kk) Hc1. apply in_cells in Hc1.
    rewrite (holds_fun _ _ _ _ _ Ht Ht' ki kj kk Hc1). f_equal.
    pose proof (conv_inside _ _ _ _ _ i j _ _ _ (Cok k Hc) Hi Hj Hc1) as I1. pose proof (conv_inside _ _ _ _ _ i' j' _ _ _ (Cok' k Hc') Hi' Hj' Hc1) as I1'.
    rewrite <- (holds_fun _ _ _ _ _ HX HX0 _ _ _ I1), <- (holds_fun _ _ _ _ _ HX' HX0' _ _ _ I1'). apply Ag; [apply Hc1|apply Hc1|exact I1|exact I1'].
  - inversion C as [| |? ? ? ? ? x0 ? Po HX0 HY0|]; subst. inversion C' as [| |? ? ? ? ? x0' ? Po' HX0' HY0'|]; subst.
    destruct M as (-> & <- & <-).
    pose proof (holds_shape _ _ _ _ _ _ HX HX0) as ->. pose proof (holds_shape _ _ _ _ _ _ HX' HX0') as ->.
    pose proof (holds_shape _ _ _ _ _ _ HY HY0) as ->. pose proof (holds_shape _ _ _ _ _ _ HY' HY0') as ->.
    rewrite (holds_fun _ _ _ _ _ HY HY0 i j k Hin), (holds_fun _ _ _ _ _ HY' HY0' i' j' k Hin'). rewrite <- Ei, <- Ej. f_equal.
    unfold window_values, window_positions.
    assert (W : forall jj ii, jj < dj mask -> ii < di mask -> x0 (i * stride + ii) (j * stride + jj) k = x0' (i' * stride + ii) (j' * stride + jj) k).
    { intros jj ii Hjj Hii.
      assert (I1 : in_shape ins (i * stride + ii) (j * stride + jj) k).
      { eapply (pool_inside ins mask stride outs i j k); [exact Po|exact Hin|]. unfold window_positions. apply in_flat_map. exists jj. split; [apply in_upto; exact Hjj|].
        apply in_map_iff. exists ii. split; [reflexivity|apply in_upto; exact Hii]. }
      assert (I1' : in_shape ins' (i' * stride + ii) (j' * stride + jj) k).
      { eapply (pool_inside ins' mask' stride outs' i' j' k); [exact Po'|exact Hin'|]. unfold window_positions. apply in_flat_map. exists jj.
        split; [apply in_upto; rewrite <- Ej; exact Hjj|]. apply in_map_iff. exists ii. split; [reflexivity|apply in_upto; rewrite <- Ei; exact Hii]. }
      rewrite <- (holds_fun _ _ _ _ _ HX HX0 _ _ _ I1), <- (holds_fun _ _ _ _ _ HX' HX0' _ _ _ I1'). apply Ag; assumption. }
    clear - W. rewrite !flat_map_concat_map, !concat_map, !map_map. f_equal. apply map_ext_in. intros jj Hjj. apply in_upto in Hjj.
    rewrite !map_map. apply map_ext_in. intros ii Hii. apply in_upto in Hii. apply W; assumption.
Qed.

Lemma computes_out bm p (X Y : T) : computes bm p X Y -> exists r y, holds bm Y r y.
Proof. intros C. inversion C; subst; eexists _, _; eassumption. Qed.

Lemma fields bm ps : forall ps' step a b (X X' Y Y' : T) s s' r r' x x' y y' i j i' j',
  Forall2 alike ps ps' -> field ps step a b -> composes bm ps X Y -> composes bm ps' X' Y' ->
  holds bm X s x -> holds bm X' s' x' -> holds bm Y r y -> holds bm Y' r' y' ->
  agree s s' x x' a b (i * step) (j * step) (i' * step) (j' * step) ->
  forall k, in_shape r i j k -> in_shape r' i' j' k -> y i j k = y' i' j' k.
Proof.
  induction ps as [|p ps IH]; intros ps' step a b X X' Y Y' s s' r r' x x' y y' i j i' j' Al Fi C C' HX HX' HY HY' Ag k Hin Hin'.
  - inversion Al; subst. inversion Fi; subst. cbn in C, C'. subst Y Y'.
    pose proof (holds_shape _ _ _ _ _ _ HX HY) as ->. pose proof (holds_shape _ _ _ _ _ _ HX' HY') as ->.
    rewrite <- (holds_fun _ _ _ _ _ HX HY _ _ _ Hin), <- (holds_fun _ _ _ _ _ HX' HY' _ _ _ Hin').
    specialize (Ag 0 0 k). rewrite !N.mul_1_r, !N.add_0_r in Ag. apply Ag; [lia|lia|exact Hin|exact Hin'].
  - inversion Al as [|? p' ? ps1 A1 Al']; subst. cbn [composes] in C, C'. destruct C as (Z & C1 & C2), C' as (Z' & C1' & C2').
    destruct (computes_out _ _ _ _ C1) as (t & z & HZ). destruct (computes_out _ _ _ _ C1') as (t' & z' & HZ').
    inversion Fi as [|kernels biases st ins outs ? step1 a1 b1 ei ej Fi' Me|ins mask outs st ? step1 a1 b1 Fi']; subst.
    + eapply (IH ps1 step1 a1 b1 Z Z' Y Y' t t' r r' z z' y y' i j i' j'); try eassumption.
      intros q q2 c Hq Hq2 Z1 Z2. eapply (one_layer bm _ p' X X' Z Z' s s' t t' x x' z z' _ _ _ _ ei ej st A1 C1 C1' HX HX' HZ HZ'); [split; [reflexivity|exact Me]| |exact Z1|exact Z2].
      intros u v c' Hu Hv S1 S2.
      assert (Lu : q * st + u < (a1 - 1) * st + ei) by (pose proof (N.mul_le_mono_r q (a1 - 1) st ltac:(lia)); lia).
      assert (Lv : q2 * st + v < (b1 - 1) * st + ej) by (pose proof (N.mul_le_mono_r q2 (b1 - 1) st ltac:(lia)); lia).
      specialize (Ag (q * st + u) (q2 * st + v) c' Lu Lv).
      replace ((i * step1 + q) * st + u) with (i * (st * step1) + (q * st + u)) in * by ring.
      replace ((j * step1 + q2) * st + v) with (j * (st * step1) + (q2 * st + v)) in * by ring.
      replace ((i' * step1 + q) * st + u) with (i' * (st * step1) + (q * st + u)) in * by ring.
      replace ((j' * step1 + q2) * st + v) with (j' * (st * step1) + (q2 * st + v)) in * by ring.
      apply Ag; assumption.
    + eapply (IH ps1 step1 a1 b1 Z Z' Y Y' t t' r r' z z' y y' i j i' j'); try eassumption.
      intros q q2 c Hq Hq2 Z1 Z2. eapply (one_layer bm _ p' X X' Z Z' s s' t t' x x' z z' _ _ _ _ (di mask) (dj mask) st A1 C1 C1' HX HX' HZ HZ'); [repeat split| |exact Z1|exact Z2].
      intros u v c' Hu Hv S1 S2.
      assert (Lu : q * st + u < (a1 - 1) * st + di mask) by (pose proof (N.mul_le_mono_r q (a1 - 1) st ltac:(lia)); lia).
      assert (Lv : q2 * st + v < (b1 - 1) * st + dj mask) by (pose proof (N.mul_le_mono_r q2 (b1 - 1) st ltac:(lia)); lia).
      specialize (Ag (q * st + u) (q2 * st + v) c' Lu Lv).
      replace ((i * step1 + q) * st + u) with (i * (st * step1) + (q * st + u)) in * by ring.
      replace ((j * step1 + q2) * st + v) with (j * (st * step1) + (q2 * st + v)) in * by ring.
      replace ((i' * step1 + q) * st + u) with (i' * (st * step1) + (q * st + u)) in * by ring.
      replace ((j' * step1 + q2) * st + v) with (j' * (st * step1) + (q2 * st + v)) in * by ring.
      apply Ag; assumption.
Qed.

Lemma network_fields bm (n n' : network F) (X X' : T) x x' step a b :
  well_built bm n -> well_built bm n' -> layers n <> [] ->
  Forall2 alike (map params_of (layers n)) (map params_of (layers n')) -> field (map params_of (layers n)) step a b ->
  holds bm X (net_input_shape n) x -> holds bm X' (net_input_shape n') x' ->
  exists n1 n1' Y Y' y y', infer bm n X = Done (n1, Ok tt) /\ infer bm n' X' = Done (n1', Ok tt)
    /\ get_output n1 = Done (Ok Y) /\ get_output n1' = Done (Ok Y')
    /\ holds bm Y (net_output_shape n) y /\ holds bm Y' (net_output_shape n') y'
    /\ forall i j i' j' k, in_shape (net_output_shape n) i j k -> in_shape (net_output_shape n') i' j' k ->
         (forall p q c, p < a -> q < b -> in_shape (net_input_shape n) (i * step + p) (j * step + q) c ->
            in_shape (net_input_shape n') (i' * step + p) (j' * step + q) c ->
            x (i * step + p) (j * step + q) c = x' (i' * step + p) (j' * step + q) c) ->
         y i j k = y' i' j' k.
Proof.
  intros W W' NE Al Fi HX HX'. assert (NE' : layers n' <> []).
  { intros Q. rewrite Q in Al. inversion Al as [E|]. destruct (layers n); [congruence|discriminate]. }
  destruct (infer_output bm n X W NE (holds_shaped _ _ _ _ HX)) as (n1 & Y & E & G & S & C).
  destruct (infer_output bm n' X' W' NE' (holds_shaped _ _ _ _ HX')) as (n1' & Y' & E' & G' & S' & C').
  exists n1, n1', Y, Y', (val Y), (val Y'). do 4 (split; [assumption|]). split; [apply shaped_holds, S|]. split; [apply shaped_holds, S'|].
  intros i j i' j' k Hin Hin' Ag. eapply (fields bm _ _ step a b X X' Y Y'); try eassumption; apply shaped_holds; assumption.
Qed.

End Facts.
