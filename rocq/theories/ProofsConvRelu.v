(** * Proof for C14: the fused convolution against the plain one *)
From Coq Require Import ZifyBool ZifyNat ZifyN.
From Verif Require Import Base Arith Helper Tensor Convolution Network Spec Loops TensorFacts OpsFacts ProofsTensor ProofsConv.
From Verif Require Import Float32 Float32Facts ProofsFloat.
Ltac Zify.zify_post_hook ::= Z.div_mod_to_equations.

(** Two runs that panic alike or end in related states. *)
Inductive rel_res {A B} (R : A -> B -> Prop) : res A -> res B -> Prop :=
| rel_done a b : R a b -> rel_res R (Done a) (Done b)
| rel_panic p : rel_res R (Panic p) (Panic p).

Lemma rel_bind {A B A' B'} (R : A -> B -> Prop) (R' : A' -> B' -> Prop) x y f g :
  rel_res R x y -> (forall a b, R a b -> rel_res R' (f a) (g b)) -> rel_res R' (bind x f) (bind y g).
Proof. intros [a b H|p] Hf; simpl; [apply Hf; exact H|constructor]. Qed.

Lemma rel_eq {A} (x : res A) : rel_res eq x x.
Proof. destruct x; constructor. reflexivity. Qed.

Lemma rel_forM {X A B} (R : A -> B -> Prop) (l : list X) f g a b :
  (forall x a b, R a b -> rel_res R (f x a) (g x b)) -> R a b -> rel_res R (forM l f a) (forM l g b).
Proof.
  intros H. revert a b. induction l as [|x l IH]; intros a b Hab; simpl; [constructor; exact Hab|].
  eapply rel_bind; [apply H; exact Hab|]. intros a' b' H'. apply IH. exact H'.
Qed.

Definition same_layout {F} (a b : tensor F) : Prop :=
  strides a = strides b /\ tshape a = tshape b /\ len (data a) = len (data b).

Section Rel.
Context {F : Type} (A1 A2 : Arith F).

Lemma rel_window bm (image kernel : tensor F) stride i j :
  rel_res (fun _ _ => True) (@conv_window bm F A1 image kernel stride i j) (@conv_window bm F A2 image kernel stride i j).
Proof.
  unfold conv_window. eapply rel_bind; [apply rel_eq|]. intros a ? <-. eapply rel_bind; [apply rel_eq|]. intros b ? <-.
  unfold for_kji, for_. apply rel_forM; [|trivial]. intros kk x y _. apply rel_forM; [|trivial]. intros kj x' y' _.
  apply rel_forM; [|trivial]. intros ki u v _.
  do 4 (eapply rel_bind; [apply rel_eq|]; intros ? ? <-). eapply rel_bind; [apply rel_eq|]. intros ? ? <-.
  eapply rel_bind; [apply rel_eq|]. intros ? ? <-. constructor. trivial.
Qed.

Lemma rel_conv_with post1 post2 bm (image kernel bias r : tensor F) stride ch :
  rel_res (fun a b => same_layout (fst a) (fst b) /\ snd a = snd b)
    (@conv_with F A1 post1 bm image kernel bias stride r ch) (@conv_with F A2 post2 bm image kernel bias stride r ch).
Proof.
  unfold conv_with. eapply rel_bind; [apply rel_eq|]. intros c ? <-. destruct c as [[]|e].
  2:{ constructor. simpl. repeat split; reflexivity. }
  destruct (_ || _); [constructor; simpl; repeat split; reflexivity|].
  eapply rel_bind with (R := fun _ _ => True).
  { unfold get_item. destruct (fits_index _ _); [|constructor; trivial].
    eapply rel_bind; [apply rel_eq|]. intros ? ? <-. unfold data_get. destruct (vget _ _); constructor; trivial. }
  intros b1 b2 _. eapply rel_bind with (R := same_layout).
  2:{ intros a b H. constructor. simpl. auto. }
  unfold for_. apply rel_forM; [|repeat split; reflexivity]. intros j a b H. apply rel_forM; [|exact H].
  clear a b H. intros i a b (H1 & H2 & H3). eapply rel_bind; [apply rel_window|]. intros v1 v2 _.
  unfold get_data_index. rewrite H1. eapply rel_bind; [apply rel_eq|]. intros id ? <-.
  unfold data_set, vset. rewrite H3. destruct (id <? len (data b)); [|constructor].
  simpl. constructor. repeat split; simpl; try assumption. rewrite !len_list_set. exact H3.
Qed.

End Rel.

Lemma conv_terms_same e1 e2 ks stride f h i j :
  Forall2 same (@conv_terms f32 (f32_arith e1) ks stride f h i j) (@conv_terms f32 (f32_arith e2) ks stride f h i j).
Proof. unfold conv_terms. apply Forall2_map_same. intros [[a b] c]. apply mul_env. Qed.

Lemma conv_relu_spec e1 e2 bm (image kernel bias r : tensor f32) stride ch :
  wf image -> wf kernel -> wf bias -> wf r ->
  let plain := @convolution_bias bm f32 (f32_arith e1) image kernel bias stride r ch in
  let fused := @convolution_bias_relu bm f32 (f32_arith e2) image kernel bias stride r ch in
  (forall p, plain = Panic p <-> fused = Panic p)
  /\ (forall msg, (exists t, plain = Done (t, Err msg)) <-> fused = Done (r, Err msg))
  /\ ((exists t, plain = Done (t, Ok tt)) <-> (exists t, fused = Done (t, Ok tt)))
  /\ (forall t t', plain = Done (t, Ok tt) -> fused = Done (t', Ok tt) -> wf t' /\ tshape t' = tshape r
        /\ forall i j k, in_shape (tshape r) i j k -> exists x,
             @get_item bm f32 (f32_arith e1) t (mkIndex i j k) = Done x
             /\ @get_item bm f32 (f32_arith e2) t' (mkIndex i j k)
                = Done (if k =? ch then (if f32_gtb x f32_zero then x else f32_zero) else x)).
Proof.
  intros Wi Wk Wb Wr. cbv zeta. rewrite convolution_bias_with, convolution_bias_relu_with.
  pose proof (rel_conv_with (f32_arith e1) (f32_arith e2) (fun x => x) (fun x => @fmax f32 (f32_arith e2) x f32_zero)
                bm image kernel bias r stride ch) as R.
  destruct (@wf_ex f32 (f32_arith e1) image Wi) as (s & f & A1 & Ei).
  destruct (@wf_ex f32 (f32_arith e1) kernel Wk) as (ks & h & A2 & Ek).
  destruct (@wf_ex f32 (f32_arith e1) bias Wb) as (bs & fb & A3 & Eb).
  destruct (@wf_ex f32 (f32_arith e1) r Wr) as (rs & g & A4 & Er).
  assert (S1 := @conv_with_spec f32 (f32_arith e1) (fun x => x) bm image kernel bias r s ks bs rs f h fb g
                  (@bias_value f32 (f32_arith e1) bs fb) stride ch).
  assert (S2 := @conv_with_spec f32 (f32_arith e2) (fun x => @fmax f32 (f32_arith e2) x f32_zero) bm image kernel bias r
                  s ks bs rs f h fb g (@bias_value f32 (f32_arith e2) bs fb) stride ch).
  destruct S1 as (_ & S1 & E1 & _); try (apply holds_iff; auto; fail); [rewrite Eb; apply get_bias; assumption|].
  destruct S2 as (_ & S2 & E2 & _); try (apply holds_iff; auto; fail); [rewrite Eb; apply get_bias; assumption|].
  assert (Ers : tshape r = rs) by (rewrite Er; reflexivity).
  change (@fzero f32 (f32_arith e2)) with f32_zero.
  remember (@conv_with f32 (f32_arith e1) (fun x => x) bm image kernel bias stride r ch) as plain eqn:Ep. clear Ep.
  remember (@conv_with f32 (f32_arith e2) (fun x => @fmax f32 (f32_arith e2) x f32_zero) bm image kernel bias stride r ch)
    as fused eqn:Ef. clear Ef.
  destruct R as [[t o] [t' o'] [L Eo]|p]; [simpl in L, Eo|].
  - subst o'. split; [intros p; split; discriminate|]. split; [|split].
    + intros msg. split.
      * intros (t0 & [= <- ->]). rewrite (E2 t' msg eq_refl). reflexivity.
      * intros [= -> ->]. eexists; reflexivity.
    + split; intros (t0 & [= <- ->]); eexists; reflexivity.
    + intros t0 t0' [= <- ->] [= <-].
      destruct (S1 t eq_refl) as (H1 & _). destruct (S2 t' eq_refl) as (H2 & _).
      split; [apply H2|]. split; [rewrite Ers; apply H2|]. intros i j k Hin. rewrite Ers in Hin.
      destruct H1 as (_ & T1 & R1), H2 as (_ & T2 & R2).
      eexists. split; [apply R1; rewrite T1; exact Hin|]. rewrite R2 by (rewrite T2; exact Hin). f_equal.
      unfold conv_result. destruct (k =? ch); [|reflexivity].
      rewrite (f32_relu_agrees e2), relu_f32. apply relu_same. apply add_same; [|apply same_refl].
      apply sum_same. apply conv_terms_same.
  - split; [intros p'; split; intros [= ->]; reflexivity|]. split; [|split].
    + intros msg. split; [intros (? & ?); discriminate|discriminate].
    + split; intros (? & ?); discriminate.
    + intros; discriminate.
Qed.
