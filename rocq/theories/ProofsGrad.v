(** * Backward passes of single layers are gradients *)
From Coq Require Import Reals Lra ZifyBool ZifyNat ZifyN.
From Verif Require Import Base Arith Helper Tensor Convolution Network Float32 SpecF32 Spec SpecLayer SpecNet SpecReal SpecTrain Loops TensorFacts OpsFacts.
From Verif Require Import ProofsTensor ProofsConv ProofsBackprop ProofsPool Layout LayerFacts BackFacts ProofsLayer RealArith RealSums RealGrad ProofsReal.

(** ** Max pooling, any arithmetic *)
Section Any.
Context {F : Type} {AR : Arith F}.
Notation T := (tensor F).

Lemma filter_map {A B} (f : A -> B) P l : filter P (map f l) = map f (filter (fun x => P (f x)) l).
Proof. induction l as [|x l IH]; cbn; [reflexivity|]. destruct (P (f x)); cbn; rewrite IH; reflexivity. Qed.

Lemma sources_cells s (h : N * N * N -> N) p :
  sources (map h (cells s)) p = map (fun '(i, j, k) => flat s i j k) (filter (fun c => h c =? p) (cells s)).
Proof.
  unfold sources. rewrite len_map. replace (len (cells s)) with (di s * dj s * dk s) by (unfold len; rewrite length_cells; lia).
  rewrite upto_cells, filter_map. f_equal. apply filter_ext_in. intros ((i & j) & k) Hc. apply in_cells in Hc.
  rewrite nth_error_map, (nth_error_nth' _ (0, 0, 0)) by (rewrite length_cells; pose proof (flat_lt _ _ _ _ Hc); lia).
  rewrite nth_cells by exact Hc. reflexivity.
Qed.

(** Where each gradient went. *)
Definition won (l : mp_layer) (x : N -> N -> N -> F) (i j k : N) : N :=
  snd (track_fn (mp_input_shape l) (di (mp_mask_shape l)) (dj (mp_mask_shape l)) (mp_stride l) x i j k).

Lemma mp_train_values bm (l : mp_layer) x g (X Y0 G og : T) :
  mp_ok l -> mp_run_state l = Training -> 0 < di (mp_input_shape l) * dj (mp_input_shape l) * dk (mp_input_shape l) ->
  holds bm X (mp_input_shape l) x -> shaped Y0 (mp_output_shape l) -> holds bm G (mp_output_shape l) g -> shaped og (mp_input_shape l) ->
  let l1 := mp_set_origin l (map (fun '(i, j, k) => won l x i j k) (cells (mp_output_shape l))) in
  exists og', mp_forward bm l X Y0 = Done (l1, of_fun (mp_output_shape l) (pool_fn (di (mp_mask_shape l)) (dj (mp_mask_shape l)) (mp_stride l) x), Ok tt)
    /\ (forall Y, mp_backward bm l1 X Y G og = Done (l1, og', Ok tt))
    /\ holds bm og' (mp_input_shape l) (fun a b c =>
         sum (map (fun '(i, j, k) => g i j k) (filter (fun '(i, j, k) => won l x i j k =? flat (mp_input_shape l) a b c) (cells (mp_output_shape l))))).
Proof.
  intros O R Hpos HX HY HG Ho l1. pose proof O as (Ai & A & P & Ht). destruct (Ht R) as (L & _).
  destruct (mp_forward_ok bm l X Y0 O (holds_shaped _ _ _ _ HX) HY) as (l' & Y & E & _ & O1 & _).
  assert (EF : mp_forward bm l X Y0 = Done (l1, of_fun (mp_output_shape l) (pool_fn (di (mp_mask_shape l)) (dj (mp_mask_shape l)) (mp_stride l) x), Ok tt)).
  { pose proof (shaped_holds bm _ _ HY) as HY'.
    destruct (track_agrees bm X Y0 _ _ x _ (mp_mask_shape l) (mp_stride l) (mp_origin l) HX HY' P L) as (r' & E1 & _ & ->).
    unfold mp_forward. rewrite R, E1. reflexivity. }
  rewrite EF in E. injection E as <- _.
  destruct (mp_backward_values bm l1 X Y G og O1 R (holds_shaped _ _ _ _ HG) Ho Hpos) as (og' & EB & HB).
  exists og'. split; [exact EF|]. split; [intros Y'; exact EB|].
  eapply holds_ext; [|exact HB]. intros a b c _. cbn [mp_origin l1 mp_set_origin mp_input_shape].
  rewrite sources_cells, map_map. unfold sum. f_equal.
  rewrite (filter_ext (fun c0 => (let '(i, j, k) := c0 in won l x i j k) =? flat (mp_input_shape l) a b c)
             (fun '(i, j, k) => won l x i j k =? flat (mp_input_shape l) a b c)) by (intros ((i & j) & k); reflexivity).
  apply map_ext_in. intros ((i & j) & k) Hc. apply filter_In in Hc. destruct Hc as (Hc & _). apply in_cells in Hc.
  apply holds_iff in HG. destruct HG as (_ & ->). change (val (of_fun (mp_output_shape l) g) i j k = g i j k). apply val_of_fun. exact Hc.
Qed.

Lemma won_in l x i j k : mp_ok l -> 0 < di (mp_input_shape l) * dj (mp_input_shape l) * dk (mp_input_shape l) ->
  in_shape (mp_output_shape l) i j k -> exists a b c, in_shape (mp_input_shape l) a b c /\ flat (mp_input_shape l) a b c = won l x i j k.
Proof.
  intros (_ & _ & P & _) Hpos Hin. apply flat_surj. unfold won. destruct (track_bound _ _ _ _ x i j k P Hin) as [->|H]; [exact Hpos|exact H].
Qed.

End Any.

Local Open Scope R_scope.

Section Real.
Context (m : R).
#[local] Hint Extern 0 (Arith R) => exact (R_arith m) : typeclass_instances.
Notation T := (tensor R).

Lemma relu_R z : relu z = Rmax 0 z.
Proof. unfold relu. cbn [fgtb fzero R_arith]. destruct (Rlt_dec 0 z); [rewrite Rmax_right|rewrite Rmax_left]; lra. Qed.

Lemma relu_agrees_R : relu_agrees R.
Proof. intros l b. rewrite relu_R, Rmax_comm. reflexivity. Qed.

(** ** Fully connected *)
Lemma pre_activation_R n w b x i : pre_activation n w b x i = fc_pre n w b x i.
Proof. unfold pre_activation, fc_pre. cbn [fadd fmul R_arith]. rewrite sum_Rsum. reflexivity. Qed.

Lemma gate_R z : gate z = step z.
Proof. unfold gate, step. cbn [fgtb fzero fone R_arith]. destruct (Rlt_dec 0 z); reflexivity. Qed.

Lemma fc_exact bm (l : fc_layer R) M n w b x g wg bg (X Y0 G og : T) :
  fc_ok M n l -> fc_run_state l = Training ->
  holds bm (fc_weights l) (mkShape M n 1) w -> holds bm (fc_bias l) (mkShape M 1 1) b ->
  holds bm (fc_weights_gradients l) (mkShape M n 1) wg -> holds bm (fc_bias_gradients l) (mkShape M 1 1) bg ->
  holds bm X (mkShape n 1 1) x -> shaped Y0 (mkShape M 1 1) -> holds bm G (mkShape M 1 1) g -> shaped og (mkShape n 1 1) ->
  exists l1 Y l2 og', fc_forward bm l X Y0 = Done (l1, Y, Ok tt) /\ holds bm Y (mkShape M 1 1) (fc_map n w b x)
    /\ (forall Y', fc_backward bm l1 X Y' G og = Done (l2, og', Ok tt))
    /\ holds bm og' (mkShape n 1 1) (fc_back M n w b x g)
    /\ holds bm (fc_weights_gradients l2) (mkShape M n 1) (fun i j k => wg i j k + fc_back_weights n w b x g i j k)
    /\ holds bm (fc_bias_gradients l2) (mkShape M 1 1) (fun i j k => bg i j k + fc_back_bias n w b x g i j k).
Proof.
  intros O R Hw Hb Hwg Hbg HX HY HG Ho. pose proof (holds_shaped _ _ _ _ HX) as SX. pose proof (holds_shaped _ _ _ _ HG) as SG.
  pose proof O as (Ow & Ob & Ot). destruct (Ot R) as (H1 & H2 & H3 & H4).
  set (w' := val (fc_weights l)). set (b' := val (fc_bias l)). set (x' := val X). set (g' := val G).
  assert (Ew : forall i p, (i < M)%N -> (p < n)%N -> w' i p 0%N = w i p 0%N).
  { intros. apply (holds_fun bm _ _ _ _ (shaped_holds bm _ _ Ow) Hw). repeat split; cbn; lia. }
  assert (Eb : forall i, (i < M)%N -> b' i 0%N 0%N = b i 0%N 0%N).
  { intros. apply (holds_fun bm _ _ _ _ (shaped_holds bm _ _ Ob) Hb). repeat split; cbn; lia. }
  assert (Ex : forall p, (p < n)%N -> x' p 0%N 0%N = x p 0%N 0%N).
  { intros. apply (holds_fun bm _ _ _ _ (shaped_holds bm _ _ SX) HX). repeat split; cbn; lia. }
  assert (Eg : forall i, (i < M)%N -> g' i 0%N 0%N = g i 0%N 0%N).
  { intros. apply (holds_fun bm _ _ _ _ (shaped_holds bm _ _ SG) HG). repeat split; cbn; lia. }
  assert (Ep : forall i, (i < M)%N -> fc_pre n w' b' x' i = fc_pre n w b x i) by (intros; apply fc_pre_ext; auto).
  set (mask := of_fun (mkShape M 1 1) (fun i _ _ => gate (pre_activation n w' b' x' i))).
  assert (O1 : fc_ok M n (fc_set_mask l mask)).
  { split; [exact Ow|]. split; [exact Ob|]. intros _. cbn. split; [exact H1|]. split; [exact H2|]. split; [exact H3|].
    apply shaped_of_fun. apply (shaped_eq _ _ H4). }
  assert (Am : allocatable (mkShape M 1 1)) by apply (shaped_eq _ _ H4).
  assert (Aw : allocatable (mkShape M n 1)) by apply (shaped_eq _ _ H1).
  assert (Ax : allocatable (mkShape n 1 1)) by apply (shaped_eq _ _ SX).
  exists (fc_set_mask l mask), (of_fun (mkShape M 1 1) (fun i _ _ => relu (pre_activation n w' b' x' i))),
         (fc_after M n (fc_set_mask l mask) x' g'), (of_fun (mkShape n 1 1) (fc_outgoing M (fc_set_mask l mask) g')).
  assert (Em : forall i, (i < M)%N -> val mask i 0%N 0%N = step (fc_pre n w b x i)).
  { intros i Hi. unfold mask. rewrite val_of_fun by (apply in_column; exact Hi). rewrite gate_R, pre_activation_R, Ep by exact Hi. reflexivity. }
  split; [exact (fc_forward_training bm l M n X Y0 O R SX HY)|]. split; [|split; [|split; [|split]]].
  - eapply holds_ext; [|apply holds_of_fun; exact Am]. intros i j k Hin. apply column_in in Hin. destruct Hin as (Hi & -> & ->).
    rewrite relu_R, pre_activation_R, Ep by exact Hi. reflexivity.
  - intros Y'. exact (fc_backward_values bm (fc_set_mask l mask) M n X Y' G og O1 R SX SG Ho).
  - eapply holds_ext; [|apply holds_of_fun; exact Ax]. intros p j k Hin. apply column_in in Hin. destruct Hin as (Hp & -> & ->).
    unfold fc_outgoing, mm_fn, fc_back. rewrite sum_Rsum. apply Rsum_ext. intros i Hi. apply in_upto in Hi. cbn [fmul R_arith].
    change (val (fc_weights (fc_set_mask l mask)) i p 0%N) with (w' i p 0%N). change (fc_relu_mask (fc_set_mask l mask)) with mask.
    rewrite Em, Ew, Eg by assumption. reflexivity.
  - cbn [fc_weights_gradients fc_after]. eapply holds_ext; [|apply holds_of_fun; exact Aw]. intros i p k (Hi & Hp & Hk). cbn in Hi, Hp, Hk.
    assert (k = 0%N) by lia. subst k.
    cbn [fc_weights_gradients fc_set_mask fc_relu_mask fadd fmul R_arith]. f_equal.
    + apply (holds_fun bm _ _ _ _ (shaped_holds bm _ _ H1) Hwg). repeat split; cbn; lia.
    + unfold mm_fn, fc_back_weights. rewrite sum_Rsum, upto_1. cbn [map Rsum fold_right fmul R_arith].
      rewrite Em, Eg, Ex by assumption. ring.
  - cbn [fc_bias_gradients fc_after]. eapply holds_ext; [|apply holds_of_fun; exact Am]. intros i j k Hin. apply column_in in Hin. destruct Hin as (Hi & -> & ->).
    cbn [fc_bias_gradients fc_set_mask fc_relu_mask fadd fmul R_arith]. f_equal.
    + apply (holds_fun bm _ _ _ _ (shaped_holds bm _ _ H3) Hbg). repeat split; cbn; lia.
    + unfold fc_back_bias. rewrite Em, Eg by assumption. reflexivity.
Qed.

Lemma fc_gradient_input M n w b x g : (forall i, (i < M)%N -> fc_pre n w b x i <> 0) ->
  gradient (mkShape n 1 1) (fun x => pairing (mkShape M 1 1) g (fc_map n w b x)) x (fc_back M n w b x g).
Proof.
  intros NZ X v H. pose proof (fc_curve M n (fun _ => w) (fun _ => b) X w b x _ _ v (curve_const _ w) (curve_const _ b) H NZ) as C.
  apply (curve_pairing _ _ _ _ g) in C. eapply deriv_eq; [|exact C]. rewrite fc_adjoint, !pairing_zero. ring.
Qed.

Lemma fc_gradient_weights M n w b x g : (forall i, (i < M)%N -> fc_pre n w b x i <> 0) ->
  gradient (mkShape M n 1) (fun w => pairing (mkShape M 1 1) g (fc_map n w b x)) w (fc_back_weights n w b x g).
Proof.
  intros NZ W v H. pose proof (fc_curve M n W (fun _ => b) (fun _ => x) w b x v _ _ H (curve_const _ b) (curve_const _ x) NZ) as C.
  apply (curve_pairing _ _ _ _ g) in C. eapply deriv_eq; [|exact C]. rewrite fc_adjoint, !pairing_zero. ring.
Qed.

Lemma fc_gradient_bias M n w b x g : (forall i, (i < M)%N -> fc_pre n w b x i <> 0) ->
  gradient (mkShape M 1 1) (fun b => pairing (mkShape M 1 1) g (fc_map n w b x)) b (fc_back_bias n w b x g).
Proof.
  intros NZ B v H. pose proof (fc_curve M n (fun _ => w) B (fun _ => x) w b x _ v _ (curve_const _ w) H (curve_const _ x) NZ) as C.
  apply (curve_pairing _ _ _ _ g) in C. eapply deriv_eq; [|exact C]. rewrite fc_adjoint, !pairing_zero. ring.
Qed.

(** C25 *)
Lemma fc_true_gradients bm (l : fc_layer R) M n w b x g wg bg (X Y0 G og : T) :
  fc_ok M n l -> fc_run_state l = Training ->
  holds bm (fc_weights l) (mkShape M n 1) w -> holds bm (fc_bias l) (mkShape M 1 1) b ->
  holds bm (fc_weights_gradients l) (mkShape M n 1) wg -> holds bm (fc_bias_gradients l) (mkShape M 1 1) bg ->
  holds bm X (mkShape n 1 1) x -> shaped Y0 (mkShape M 1 1) -> holds bm G (mkShape M 1 1) g -> shaped og (mkShape n 1 1) ->
  (forall i, (i < M)%N -> fc_pre n w b x i <> 0) ->
  exists l1 Y l2 og' d dw db, fc_forward bm l X Y0 = Done (l1, Y, Ok tt) /\ holds bm Y (mkShape M 1 1) (fc_map n w b x)
    /\ fc_backward bm l1 X Y G og = Done (l2, og', Ok tt)
    /\ holds bm og' (mkShape n 1 1) d
    /\ holds bm (fc_weights_gradients l2) (mkShape M n 1) (fun i j k => wg i j k + dw i j k)
    /\ holds bm (fc_bias_gradients l2) (mkShape M 1 1) (fun i j k => bg i j k + db i j k)
    /\ gradient (mkShape n 1 1) (fun x => pairing (mkShape M 1 1) g (fc_map n w b x)) x d
    /\ gradient (mkShape M n 1) (fun w => pairing (mkShape M 1 1) g (fc_map n w b x)) w dw
    /\ gradient (mkShape M 1 1) (fun b => pairing (mkShape M 1 1) g (fc_map n w b x)) b db.
Proof.
  intros O R Hw Hb Hwg Hbg HX HY HG Ho NZ.
  destruct (fc_exact bm l M n w b x g wg bg X Y0 G og O R Hw Hb Hwg Hbg HX HY HG Ho) as (l1 & Y & l2 & og' & E1 & H1 & E2 & H2 & H3 & H4).
  exists l1, Y, l2, og', (fc_back M n w b x g), (fc_back_weights n w b x g), (fc_back_bias n w b x g).
  repeat (split; [solve [assumption|apply E2]|]). split; [apply fc_gradient_input; exact NZ|]. split; [apply fc_gradient_weights; exact NZ|apply fc_gradient_bias; exact NZ].
Qed.

(** ** Softmax *)
Lemma softmax_R bm (t o : T) s f : holds bm t s f -> shaped o s -> exists o', softmax t o = Done o' /\ holds bm o' s (softmax_map s f).
Proof.
  intros Ht Ho. destruct (softmax_value bm t o s f Ht Ho) as (o' & E & H). exists o'. split; [exact E|].
  eapply holds_ext; [|exact H]. intros i j k _. unfold softmax_map. cbn [fdiv fexp R_arith]. rewrite sum_Rsum. reflexivity.
Qed.

Lemma sm_outgoing_R n y g i : (i < n)%N -> sm_outgoing n y g i 0%N 0%N = softmax_back (mkShape n 1 1) y g i 0%N 0%N.
Proof.
  intros Hi. unfold sm_outgoing, softmax_back, mm_fn. rewrite pairing_column. rewrite !sum_Rsum, upto_1. cbn [map Rsum fold_right fadd fmul fmone R_arith].
  rewrite sum_Rsum. cbn [fmul R_arith]. ring.
Qed.

Lemma sm_exact bm (l : sm_layer R) n x g (X Y0 G og : T) :
  sm_ok l -> sm_run_state l = Training -> sm_shape l = mkShape n 1 1 ->
  holds bm X (mkShape n 1 1) x -> shaped Y0 (mkShape n 1 1) -> holds bm G (mkShape n 1 1) g -> shaped og (mkShape n 1 1) ->
  exists Y l2 og', sm_forward l X Y0 = Done (l, Y, Ok tt) /\ holds bm Y (mkShape n 1 1) (softmax_map (mkShape n 1 1) x)
    /\ sm_backward bm l X Y G og = Done (l2, og', Ok tt)
    /\ holds bm og' (mkShape n 1 1) (softmax_back (mkShape n 1 1) (softmax_map (mkShape n 1 1) x) g).
Proof.
  intros O R S HX HY HG Ho. destruct (softmax_R bm X Y0 _ _ HX HY) as (Y & E & HYY). exists Y.
  destruct (sm_backward_values bm l n X Y G og O R S (holds_shaped _ _ _ _ HYY) (holds_shaped _ _ _ _ HG) Ho) as (l2 & EB).
  exists l2. eexists. split; [unfold sm_forward; rewrite E; reflexivity|]. split; [exact HYY|]. split; [exact EB|].
  eapply holds_ext; [|apply holds_of_fun; apply (shaped_eq _ _ Ho)]. intros i j k Hin. apply column_in in Hin. destruct Hin as (Hi & -> & ->).
  rewrite sm_outgoing_R by exact Hi.
  assert (Ey : forall i, (i < n)%N -> val Y i 0%N 0%N = softmax_map (mkShape n 1 1) x i 0%N 0%N).
  { intros. apply (holds_fun bm _ _ _ _ (shaped_holds bm _ _ (holds_shaped _ _ _ _ HYY)) HYY). apply in_column; assumption. }
  assert (Eg : forall i, (i < n)%N -> val G i 0%N 0%N = g i 0%N 0%N).
  { intros. apply (holds_fun bm _ _ _ _ (shaped_holds bm _ _ (holds_shaped _ _ _ _ HG)) HG). apply in_column; assumption. }
  unfold softmax_back. rewrite Ey, Eg by exact Hi. f_equal. f_equal. apply pairing_ext; intros i' j' k' H'; apply column_in in H'; destruct H' as (H' & -> & ->); auto.
Qed.

Lemma softmax_gradient s x g :
  gradient s (fun x => pairing s g (softmax_map s x)) x (softmax_back s (softmax_map s x) g).
Proof.
  intros X v H. pose proof (softmax_curve s X x v H) as C. apply (curve_pairing _ _ _ _ g) in C.
  eapply deriv_eq; [|exact C]. apply softmax_adjoint.
Qed.

(** C22 *)
Lemma sm_true_gradient bm (l : sm_layer R) n x g (X Y0 G og : T) :
  sm_ok l -> sm_run_state l = Training -> sm_shape l = mkShape n 1 1 ->
  holds bm X (mkShape n 1 1) x -> shaped Y0 (mkShape n 1 1) -> holds bm G (mkShape n 1 1) g -> shaped og (mkShape n 1 1) ->
  exists Y l2 og' d, sm_forward l X Y0 = Done (l, Y, Ok tt) /\ holds bm Y (mkShape n 1 1) (softmax_map (mkShape n 1 1) x)
    /\ sm_backward bm l X Y G og = Done (l2, og', Ok tt) /\ holds bm og' (mkShape n 1 1) d
    /\ gradient (mkShape n 1 1) (fun x => pairing (mkShape n 1 1) g (softmax_map (mkShape n 1 1) x)) x d.
Proof.
  intros O R S HX HY HG Ho. destruct (sm_exact bm l n x g X Y0 G og O R S HX HY HG Ho) as (Y & l2 & og' & E1 & H1 & E2 & H2).
  exists Y, l2, og', (softmax_back (mkShape n 1 1) (softmax_map (mkShape n 1 1) x) g).
  do 4 (split; [assumption|]). apply softmax_gradient.
Qed.

(** ** Max pooling *)
Lemma pick_max_R a b : pick_max a b = Rmax b a.
Proof. unfold pick_max. cbn [fgtb R_arith]. destruct (Rlt_dec a b); [rewrite Rmax_left|rewrite Rmax_right]; lra. Qed.

Lemma fold_pick_R l a : fold_left pick_max l a = fold_right Rmax a l.
Proof.
  revert a. induction l as [|x l IH]; intros a; cbn [fold_left fold_right]; [reflexivity|]. rewrite IH, pick_max_R.
  clear IH. induction l as [|y l IH]; cbn [fold_right]; [reflexivity|]. rewrite IH, !Rmax_assoc, (Rmax_comm y x). reflexivity.
Qed.

Lemma pool_fn_R mask stride f i j k : pool_fn (di mask) (dj mask) stride f i j k = pool_map m mask stride f i j k.
Proof. unfold pool_fn, pool_map. rewrite fold_pick_R. unfold window_values. f_equal. unfold window, window_positions.
  rewrite !flat_map_concat_map, concat_map, map_map. f_equal. apply map_ext. intros jj. rewrite map_map. reflexivity. Qed.

Lemma running_max_R l : running_max l = fold_right Rmax m l.
Proof. exact (fold_pick_R l m). Qed.

(** With a unique maximum above [m] the recorded position is its position. *)
Lemma track_unique s mi mj stride (f : N -> N -> N -> R) i j k a b c :
  unique_max m (window_positions mi mj stride i j k) f (a, b, c) ->
  snd (track_fn s mi mj stride f i j k) = flat s a b c.
Proof.
  intros (Hc & Hl & Hu). unfold track_fn.
  assert (Ew : window_pos s mi mj stride f i j k = map (fun '(a, b, c) => (f a b c, flat s a b c)) (window_positions mi mj stride i j k)).
  { unfold window_pos, window_positions. rewrite !flat_map_concat_map, concat_map, map_map. f_equal. apply map_ext. intros jj. rewrite map_map. reflexivity. }
  rewrite Ew. clear Ew. cbn [value_at] in Hl.
  assert (G : forall l (m0 : R * N), (forall c', In c' l -> c' <> (a, b, c) -> value_at f c' < f a b c) ->
     (m0 = (f a b c, flat s a b c) \/ fst m0 < f a b c /\ In (a, b, c) l) ->
     snd (fold_left pick_track (map (fun '(a, b, c) => (f a b c, flat s a b c)) l) m0) = flat s a b c).
  { clear Hc Hl Hu. induction l as [|c' l IH]; intros m0 Hu Hm; cbn [map fold_left].
    - destruct Hm as [->|(_ & [])]. reflexivity.
    - apply IH; [intros; apply Hu; [right; assumption|assumption]|].
      destruct c' as ((a' & b') & c'). unfold pick_track. cbn [fst fgtb R_arith].
      assert (Dd : {(a', b', c') = (a, b, c)} + {(a', b', c') <> (a, b, c)}) by (repeat decide equality). destruct Dd as [E|Ne].
      + injection E as -> -> ->. left. destruct Hm as [->|(Hm & _)]; cbn [fst].
        * destruct (Rlt_dec (f a b c) (f a b c)); reflexivity.
        * destruct (Rlt_dec (fst m0) (f a b c)); [reflexivity|lra].
      + specialize (Hu (a', b', c') (or_introl eq_refl) Ne). cbn [value_at] in Hu. destruct Hm as [->|(Hm & Hin)]; cbn [fst].
        * left. destruct (Rlt_dec (f a b c) (f a' b' c')); [lra|reflexivity].
        * right. destruct Hin as [E|Hin]; [congruence|]. destruct (Rlt_dec (fst m0) (f a' b' c')); cbn [fst]; auto. }
  apply G; [exact Hu|right; split; [exact Hl|exact Hc]].
Qed.

Lemma window_in_shape ins mask stride outs i j k a b c : pool_ok ins mask stride outs -> in_shape outs i j k ->
  In (a, b, c) (window_positions (di mask) (dj mask) stride i j k) -> in_shape ins a b c.
Proof.
  intros (Ek & Ti & Tj) (Hi & Hj & Hk) H. apply in_window in H. destruct H as (ii & jj & H1 & H2 & -> & -> & ->).
  split; [eapply tiles_bound; eassumption|]. split; [eapply tiles_bound; eassumption|lia].
Qed.

Lemma mp_exact bm (l : mp_layer) x g (X Y0 G og : T) :
  mp_ok l -> mp_run_state l = Training -> (0 < di (mp_input_shape l) * dj (mp_input_shape l) * dk (mp_input_shape l))%N ->
  holds bm X (mp_input_shape l) x -> shaped Y0 (mp_output_shape l) -> holds bm G (mp_output_shape l) g -> shaped og (mp_input_shape l) ->
  exists l1 Y og', mp_forward bm l X Y0 = Done (l1, Y, Ok tt)
    /\ holds bm Y (mp_output_shape l) (pool_map m (mp_mask_shape l) (mp_stride l) x)
    /\ (forall Y', mp_backward bm l1 X Y' G og = Done (l1, og', Ok tt))
    /\ holds bm og' (mp_input_shape l) (routed (mp_input_shape l) (mp_output_shape l) (won l x) g).
Proof.
  intros O R Hpos HX HY HG Ho. destruct (mp_train_values bm l x g X Y0 G og O R Hpos HX HY HG Ho) as (og' & E1 & E2 & H2).
  eexists. eexists. exists og'. split; [exact E1|]. split; [|split; [exact E2|]].
  - eapply holds_ext; [|apply holds_of_fun; apply (shaped_eq _ _ HY)]. intros i j k _. apply pool_fn_R.
  - eapply holds_ext; [|exact H2]. intros a b c _. unfold routed. rewrite sum_Rsum. reflexivity.
Qed.

(** C20 *)
Lemma mp_conserves bm (l : mp_layer) x g (X Y0 G og : T) :
  mp_ok l -> mp_run_state l = Training -> (0 < di (mp_input_shape l) * dj (mp_input_shape l) * dk (mp_input_shape l))%N ->
  holds bm X (mp_input_shape l) x -> shaped Y0 (mp_output_shape l) -> holds bm G (mp_output_shape l) g -> shaped og (mp_input_shape l) ->
  exists l1 Y og' d, mp_forward bm l X Y0 = Done (l1, Y, Ok tt) /\ mp_backward bm l1 X Y G og = Done (l1, og', Ok tt)
    /\ holds bm og' (mp_input_shape l) d
    /\ Rsum (map (fun '(i, j, k) => d i j k) (cells (mp_input_shape l))) = Rsum (map (fun '(i, j, k) => g i j k) (cells (mp_output_shape l))).
Proof.
  intros O R Hpos HX HY HG Ho. destruct (mp_exact bm l x g X Y0 G og O R Hpos HX HY HG Ho) as (l1 & Y & og' & E1 & _ & E2 & H2).
  exists l1, Y, og', (routed (mp_input_shape l) (mp_output_shape l) (won l x) g). split; [exact E1|]. split; [apply E2|]. split; [exact H2|].
  pose proof (routed_adjoint (mp_input_shape l) (mp_output_shape l) (won l x) g (fun _ _ _ => 1) (fun _ _ _ => 1)) as A.
  unfold pairing in A.
  rewrite (Rsum_ext (fun '(i, j, k) => routed (mp_input_shape l) (mp_output_shape l) (won l x) g i j k * 1)
             (fun '(i, j, k) => routed (mp_input_shape l) (mp_output_shape l) (won l x) g i j k)) in A by (intros ((i & j) & k) _; ring).
  rewrite (Rsum_ext (fun '(i, j, k) => g i j k * 1) (fun '(i, j, k) => g i j k)) in A by (intros ((i & j) & k) _; ring).
  symmetry. apply A. intros i j k Hin. destruct (won_in l x i j k O Hpos Hin) as (a & b & c & H1 & H3). exists a, b, c. auto.
Qed.

Lemma pool_adjoint (l : mp_layer) x win g v :
  mp_ok l -> winners m (mp_mask_shape l) (mp_stride l) (mp_output_shape l) x win ->
  pairing (mp_output_shape l) g (fun i j k => value_at v (win i j k)) = pairing (mp_input_shape l) (routed (mp_input_shape l) (mp_output_shape l) (won l x) g) v.
Proof.
  intros (_ & _ & P & _) Hw. apply routed_adjoint. intros i j k Hin. pose proof (Hw i j k Hin) as U. destruct (win i j k) as ((a & b) & c) eqn:E.
  exists a, b, c. pose proof U as (Hc & _). split; [eapply window_in_shape; eassumption|]. split; [|reflexivity].
  symmetry. apply track_unique. exact U.
Qed.

Lemma mp_curve (l : mp_layer) X x v win :
  mp_ok l -> winners m (mp_mask_shape l) (mp_stride l) (mp_output_shape l) x win -> curve (mp_input_shape l) X x v ->
  curve (mp_output_shape l) (fun t => pool_map m (mp_mask_shape l) (mp_stride l) (X t)) (pool_map m (mp_mask_shape l) (mp_stride l) x)
        (fun i j k => value_at v (win i j k)).
Proof.
  intros (_ & _ & P & _) Hw H. apply pool_curve with (ins := mp_input_shape l); [|exact Hw|exact H].
  intros i j k ((a & b) & c) Hin Hc. eapply window_in_shape; eassumption.
Qed.

Lemma mp_true_gradient bm (l : mp_layer) x g win (X Y0 G og : T) :
  mp_ok l -> mp_run_state l = Training -> (0 < di (mp_input_shape l) * dj (mp_input_shape l) * dk (mp_input_shape l))%N ->
  holds bm X (mp_input_shape l) x -> shaped Y0 (mp_output_shape l) -> holds bm G (mp_output_shape l) g -> shaped og (mp_input_shape l) ->
  winners m (mp_mask_shape l) (mp_stride l) (mp_output_shape l) x win ->
  exists l1 Y og' d, mp_forward bm l X Y0 = Done (l1, Y, Ok tt)
    /\ holds bm Y (mp_output_shape l) (pool_map m (mp_mask_shape l) (mp_stride l) x)
    /\ mp_backward bm l1 X Y G og = Done (l1, og', Ok tt) /\ holds bm og' (mp_input_shape l) d
    /\ gradient (mp_input_shape l) (fun x => pairing (mp_output_shape l) g (pool_map m (mp_mask_shape l) (mp_stride l) x)) x d.
Proof.
  intros O R Hpos HX HY HG Ho Hw. destruct (mp_exact bm l x g X Y0 G og O R Hpos HX HY HG Ho) as (l1 & Y & og' & E1 & H1 & E2 & H2).
  exists l1, Y, og', (routed (mp_input_shape l) (mp_output_shape l) (won l x) g).
  do 2 (split; [assumption|]). split; [apply E2|]. split; [exact H2|].
  intros Xc v H. pose proof (mp_curve l Xc x v win O Hw H) as C. apply (curve_pairing _ _ _ _ g) in C.
  eapply deriv_eq; [|exact C]. apply pool_adjoint; assumption.
Qed.

End Real.

(** ** Routing in f32 *)
Section Float.
Context (e : env).
#[local] Hint Extern 0 (Arith f32) => exact (f32_arith e) : typeclass_instances.

(** C20 *)
Lemma mp_routes_f32 bm (l : mp_layer) x g (X Y0 G og : tensor f32) :
  mp_ok l -> mp_run_state l = Training -> (0 < di (mp_input_shape l) * dj (mp_input_shape l) * dk (mp_input_shape l))%N ->
  holds bm X (mp_input_shape l) x -> shaped Y0 (mp_output_shape l) -> holds bm G (mp_output_shape l) g -> shaped og (mp_input_shape l) ->
  exists l1 Y og' win, mp_forward bm l X Y0 = Done (l1, Y, Ok tt) /\ mp_backward bm l1 X Y G og = Done (l1, og', Ok tt)
    /\ (forall i j k, in_shape (mp_output_shape l) i j k ->
          win i j k = 0%N /\ (forall v, In v (window_values (di (mp_mask_shape l)) (dj (mp_mask_shape l)) (mp_stride l) x i j k) -> f32_gtb v f32_ninf = false)
          \/ exists top, first_max (window_positions (di (mp_mask_shape l)) (dj (mp_mask_shape l)) (mp_stride l) i j k)
               (fun '(a, b, c) => x a b c) (fun '(a, b, c) => flat (mp_input_shape l) a b c) top (win i j k))
    /\ holds bm og' (mp_input_shape l) (fun a b c =>
         sum (map (fun '(i, j, k) => g i j k) (filter (fun '(i, j, k) => (win i j k =? flat (mp_input_shape l) a b c)%N) (cells (mp_output_shape l))))).
Proof.
  intros O R Hpos HX HY HG Ho. destruct (mp_train_values bm l x g X Y0 G og O R Hpos HX HY HG Ho) as (og' & E1 & E2 & H).
  eexists _, _, og', (won l x). split; [exact E1|]. split; [apply E2|]. split; [|exact H].
  pose proof O as (_ & _ & P & Ht). destruct (Ht R) as (L & _). pose proof (shaped_holds bm _ _ HY) as HY'.
  destruct (max_pool_track_f32 e bm X Y0 _ _ x _ (mp_mask_shape l) (mp_stride l) (mp_origin l) HX HY' P L) as (r' & o' & T1 & _ & _ & T2).
  destruct (track_agrees bm X Y0 _ _ x _ (mp_mask_shape l) (mp_stride l) (mp_origin l) HX HY' P L) as (r'' & T3 & _).
  rewrite T3 in T1. injection T1 as <- <-. intros i j k Hin. destruct (T2 i j k Hin) as (top & p & _ & Np & D).
  erewrite (map_nth_error _ _ _ (d := (i, j, k))) in Np.
  - injection Np as <-. destruct D as [(_ & D1 & D2)|D]; [left; auto|right; exists top; exact D].
  - rewrite nth_error_nth' with (d := (0%N, 0%N, 0%N)); [rewrite nth_cells by assumption; reflexivity|].
    rewrite length_cells. pose proof (flat_lt _ _ _ _ Hin). lia.
Qed.

End Float.

(** C22: layers of any other shape *)
Lemma sm_other_shapes {F} {AR : Arith F} bm (l : sm_layer F) (X Y G og : tensor F) :
  sm_ok l -> sm_run_state l = Training -> (dj (sm_shape l) <> 1 \/ dk (sm_shape l) <> 1)%N ->
  shaped Y (sm_shape l) -> shaped G (sm_shape l) -> exists l' e, sm_backward bm l X Y G og = Done (l', og, Err e).
Proof.
  intros (A & Ht) R D Hy Hg. destruct (Ht R) as (H1 & H2). unfold sm_backward. rewrite R. cbn [run_state_eqb].
  destruct (mm_first_err bm Y G (sm_intermediate1 l)) as (e & E).
  { apply not_true_is_false. intros E. apply check_mm_true in E. rewrite (proj2 Hy), (proj2 Hg), (proj2 H1) in E.
    cbn [di dj dk shape_transpose_ij] in E. lia. }
  rewrite E. cbn. eauto.
Qed.

(** C22 in any arithmetic *)
Lemma sm_backward_formula {F} {AR : Arith F} bm (l : sm_layer F) n y g (X Y G og : tensor F) :
  sm_ok l -> sm_run_state l = Training -> sm_shape l = mkShape n 1 1 ->
  holds bm Y (mkShape n 1 1) y -> holds bm G (mkShape n 1 1) g -> shaped og (mkShape n 1 1) ->
  exists l' og', sm_backward bm l X Y G og = Done (l', og', Ok tt)
    /\ holds bm og' (mkShape n 1 1) (fun i _ _ => fadd (fmul (y i 0%N 0%N) (g i 0%N 0%N))
         (fadd fzero (fmul (y i 0%N 0%N) (fmul (sum (map (fun p => fmul (y p 0%N 0%N) (g p 0%N 0%N)) (upto n))) fmone)))).
Proof.
  intros O R S HY HG Ho. destruct (sm_backward_values bm l n X Y G og O R S (holds_shaped _ _ _ _ HY) (holds_shaped _ _ _ _ HG) Ho) as (l' & E).
  exists l'. eexists. split; [exact E|]. eapply holds_ext; [|apply holds_of_fun; apply (shaped_eq _ _ Ho)].
  intros i j k Hin. apply column_in in Hin. destruct Hin as (Hi & -> & ->). unfold sm_outgoing, mm_fn. rewrite upto_1. cbn [map]. unfold sum at 1. cbn [fold_left].
  assert (Ey : forall p, (p < n)%N -> val Y p 0%N 0%N = y p 0%N 0%N).
  { intros p Hp. apply (holds_fun bm _ _ _ _ (shaped_holds bm _ _ (holds_shaped _ _ _ _ HY)) HY). repeat split; cbn; lia. }
  assert (Eg : forall p, (p < n)%N -> val G p 0%N 0%N = g p 0%N 0%N).
  { intros p Hp. apply (holds_fun bm _ _ _ _ (shaped_holds bm _ _ (holds_shaped _ _ _ _ HG)) HG). repeat split; cbn; lia. }
  rewrite Ey, Eg by exact Hi. do 5 f_equal. apply map_ext_in. intros p Hp. apply in_upto in Hp. rewrite Ey, Eg by exact Hp. reflexivity.
Qed.
