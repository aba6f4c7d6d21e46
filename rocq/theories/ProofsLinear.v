(** * C91: backward is linear in the gradient of the loss *)
From Coq Require Import Reals Lra ZifyBool ZifyNat ZifyN.
From Verif Require Import Base Arith Helper Tensor Convolution Network Bincode Serial Spec SpecOps SpecLayer SpecNet SpecReal Loops TensorFacts OpsFacts.
From Verif Require Import ProofsTensor ProofsConv ProofsOutgoing Layout LayerFacts BackFacts NetFacts NetRun NetBack ProofsReal ProofsGrad RealArith RealSums SpecLinear.
Ltac Zify.zify_post_hook ::= Z.div_mod_to_equations.
Local Open Scope R_scope.

Section Real.
Context (m : R).
#[local] Hint Extern 0 (Arith R) => exact (R_arith m) : typeclass_instances.
Notation T := (tensor R).

Lemma sum_lin {A} a b (f g h : A -> R) l : (forall x, In x l -> h x = a * f x + b * g x) ->
  @sum R (R_arith m) (map h l) = a * @sum R (R_arith m) (map f l) + b * @sum R (R_arith m) (map g l).
Proof. intros H. rewrite !sum_Rsum, <- !Rsum_scale, <- Rsum_plus. apply Rsum_ext, H. Qed.

Lemma Rsum_fm {A} (f : A -> list R) l : Rsum (flat_map f l) = Rsum (map (fun x => Rsum (f x)) l).
Proof. pose proof (Rsum_flat_map (fun x => x) f l) as E. rewrite map_id in E. rewrite E. apply Rsum_ext. intros x _. rewrite map_id. reflexivity. Qed.

Definition lin (s : shape) (a b : R) (f g h : N -> N -> N -> R) : Prop := forall i j k, in_shape s i j k -> h i j k = a * f i j k + b * g i j k.

Lemma combined_lin bm a b s t1 t2 t3 : shaped t1 s -> shaped t2 s -> shaped t3 s -> lin s a b (val t1) (val t2) (val t3) -> combined m bm a b t1 t2 t3.
Proof.
  intros H1 H2 H3 L. exists s, (val t1), (val t2). split; [apply shaped_holds, H1|]. split; [apply shaped_holds, H2|].
  eapply holds_ext; [|apply shaped_holds, H3]. intros i j k Hin. apply L, Hin.
Qed.

Lemma lin_combined bm a b s t1 t2 t3 : shaped t1 s -> shaped t2 s -> shaped t3 s -> combined m bm a b t1 t2 t3 -> lin s a b (val t1) (val t2) (val t3).
Proof.
  intros H1 H2 H3 (s' & x & y & X & Y & Z) i j k Hin. assert (s' = s) by (rewrite <- (proj2 H1); symmetry; exact (proj2 (holds_shaped _ _ _ _ X))). subst s'.
  rewrite (holds_fun bm _ _ _ _ (shaped_holds bm _ _ H1) X i j k Hin), (holds_fun bm _ _ _ _ (shaped_holds bm _ _ H2) Y i j k Hin).
  exact (holds_fun bm _ _ _ _ (shaped_holds bm _ _ H3) Z i j k Hin).
Qed.

(** ** One layer *)
Lemma layer_linear bm l (X Y g1 g2 g3 o1 o2 o3 : T) a b :
  layer_ok l -> stays_inside l -> backs l -> get_run_mode l = Training -> shaped X (get_input_shape l) -> shaped Y (get_output_shape l) ->
  shaped g1 (get_output_shape l) -> shaped g2 (get_output_shape l) -> shaped g3 (get_output_shape l) ->
  lin (get_output_shape l) a b (val g1) (val g2) (val g3) ->
  shaped o1 (get_input_shape l) -> shaped o2 (get_input_shape l) -> shaped o3 (get_input_shape l) ->
  exists l1 l2 l3 p1 p2 p3, backward bm l X Y g1 o1 = Done (l1, p1, Ok tt) /\ backward bm l X Y g2 o2 = Done (l2, p2, Ok tt)
    /\ backward bm l X Y g3 o3 = Done (l3, p3, Ok tt)
    /\ shaped p1 (get_input_shape l) /\ shaped p2 (get_input_shape l) /\ shaped p3 (get_input_shape l)
    /\ lin (get_input_shape l) a b (val p1) (val p2) (val p3) /\ layer_combined m bm a b l l1 l2 l3.
Proof.
  intros Ol NC HB RM Hx Hy S1 S2 S3 L P1 P2 P3.
  assert (V : forall s f, allocatable s -> shaped (of_fun (F := R) s f) s).
  { intros s f A. exact (holds_shaped bm _ _ _ (holds_of_fun bm s f A)). }
  destruct l as [l|l|l|l]; cbn [layer_ok get_input_shape get_output_shape backward get_run_mode backs stays_inside] in *.
  - destruct Ol as (ks & Ak & O). pose proof O as (Hk & Ek & _ & _ & Ai & Ao & P & _).
    set (h := fun n => val (nth (N.to_nat n) (cv_kernels l) (of_fun (mkShape 0 0 0) (fun _ _ _ => fzero)))).
    assert (Q : forall g o, shaped g (cv_output_shape l) -> shaped o (cv_input_shape l) -> exists og,
      cv_backward bm l X Y g o = Done (cv_set_kernel_gradients (cv_set_mask l (multiply_elementwise_self (cv_relu_mask l) g))
         (repeat (of_fun ks (fun a b c => sum (kgrad_terms (cv_output_shape l) (cv_stride l) (val X) (val g) a b c))) (length (cv_kernels l))), og, Ok tt)
      /\ holds bm og (cv_input_shape l) (fun a b c => sum (visited_products (cv_output_shape l) (fun _ => ks) (cv_stride l) h (val g) a b c))).
    { intros g o Hg Ho. rewrite (cv_backward_values bm ks l X Y g o O RM Hx Hg).
      destruct (outgoing_runs bm g o (cv_kernels l) (cv_input_shape l) (cv_output_shape l) ks (val g) h (val o) (cv_stride l))
        as (og' & E & H); try (apply shaped_holds; assumption); [apply shaped_all_hold; exact Hk|symmetry; exact Ek|exact P| |].
      + intros L0. destruct (cv_kernels l) as [|k kl]; [unfold len in Ek; cbn in Ek; lia|].
        apply Forall_inv in NC, Hk. rewrite <- (proj2 Hk). exact NC.
      + rewrite E. cbn [bind]. exists og'. split; [reflexivity|exact H]. }
    destruct (Q g1 o1 S1 P1) as (p1 & E1 & H1). destruct (Q g2 o2 S2 P2) as (p2 & E2 & H2). destruct (Q g3 o3 S3 P3) as (p3 & E3 & H3).
    rewrite E1, E2, E3. cbn [lift3]. do 6 eexists. do 3 (split; [reflexivity|]).
    split; [exact (holds_shaped _ _ _ _ H1)|]. split; [exact (holds_shaped _ _ _ _ H2)|]. split; [exact (holds_shaped _ _ _ _ H3)|]. split.
    + intros i j k Hin.
      rewrite (holds_fun bm _ _ _ _ (shaped_holds bm _ _ (holds_shaped _ _ _ _ H1)) H1 i j k Hin).
      rewrite (holds_fun bm _ _ _ _ (shaped_holds bm _ _ (holds_shaped _ _ _ _ H2)) H2 i j k Hin).
      rewrite (holds_fun bm _ _ _ _ (shaped_holds bm _ _ (holds_shaped _ _ _ _ H3)) H3 i j k Hin).
      unfold visited_products. rewrite !sum_Rsum. rewrite !Rsum_fm, <- !Rsum_scale, <- Rsum_plus.
      apply Rsum_ext. intros k' Hk'. rewrite !Rsum_fm, <- !Rsum_scale, <- Rsum_plus. apply Rsum_ext. intros j' Hj'.
      rewrite <- !Rsum_scale, <- Rsum_plus. apply Rsum_ext. intros i' Hi'.
      assert (I : in_shape (cv_output_shape l) i' j' k').
      { unfold visited, covering in Hi', Hj'. apply filter_In in Hi', Hj'. destruct Hi' as (Hi' & _), Hj' as (Hj' & _). apply filter_In in Hi', Hj'.
        destruct Hi' as (Hi' & _), Hj' as (Hj' & _). apply in_upto in Hi', Hj', Hk'. repeat split; assumption. }
      rewrite (L _ _ _ I). cbn [fmul R_arith]. ring.
    + constructor; try reflexivity. intros i Hi. cbn [cv_set_kernel_gradients cv_kernel_gradients].
      assert (NR : forall t : T, nth_error (repeat t (length (cv_kernels l))) i = Some t).
      { intros t. destruct (nth_error _ i) as [t'|] eqn:E; [|apply nth_error_None in E; rewrite repeat_length in E; lia].
        apply nth_error_In, repeat_spec in E. congruence. }
      do 3 eexists. rewrite !NR. do 3 (split; [reflexivity|]).
      assert (Hp : allocatable ks).
      { destruct (cv_kernels l) as [|k kl]; [cbn in Hi; lia|]. apply Forall_inv in Hk. apply (shaped_eq _ _ Hk). }
      eapply combined_lin; try (apply V; exact Hp). intros p q r Hin. rewrite !val_of_fun by exact Hin. unfold kgrad_terms.
      apply sum_lin. intros ((x & y) & z) Hc. apply in_cells in Hc. rewrite (L _ _ _ Hc). cbn [fmul R_arith]. ring.
  - destruct Ol as (M & n & Ol). pose proof Ol as (Hw & Hb & Ht). destruct (Ht RM) as (G1 & G2 & G3 & G4). unfold fc_input_shape, fc_output_shape, get_shape in *.
    rewrite (proj2 Hw) in *. rewrite (proj2 Hb) in *. cbn [dj] in *.
    rewrite (fc_backward_values bm l M n X Y g1 o1 Ol RM Hx S1 P1), (fc_backward_values bm l M n X Y g2 o2 Ol RM Hx S2 P2), (fc_backward_values bm l M n X Y g3 o3 Ol RM Hx S3 P3).
    cbn [lift3]. do 6 eexists. do 3 (split; [reflexivity|]). pose proof (shaped_eq _ _ P1) as (Ai & _). pose proof (shaped_eq _ _ S1) as (Ao & _). pose proof (shaped_eq _ _ Hw) as (Aw & _).
    do 3 (split; [apply V; exact Ai|]). split.
    + intros i j k Hin. rewrite !val_of_fun by exact Hin. unfold fc_outgoing, mm_fn. apply sum_lin. intros q Hq. apply in_upto in Hq.
      destruct Hin as (Hi & Hj & Hkk). cbn [di dj dk] in *. rewrite (L q j k) by (repeat split; assumption). cbn [fmul R_arith]. ring.
    + constructor; unfold fc_after; cbn [fc_weights_gradients fc_bias_gradients].
      * exists (mkShape M n 1), (val (fc_weights_gradients l)),
          (mm_fn 1 (fun i j k => fmul (val (fc_relu_mask l) i j k) (val g1 i j k)) (fun i j k => val X j i k)),
          (mm_fn 1 (fun i j k => fmul (val (fc_relu_mask l) i j k) (val g2 i j k)) (fun i j k => val X j i k)).
        split; [apply shaped_holds; exact G1|]. do 2 (split; [apply holds_of_fun; exact Aw|]).
        eapply holds_ext; [|apply holds_of_fun; exact Aw]. intros i j k (Hi & Hj & Hkk). cbn [di dj dk] in *. cbn [fadd R_arith]. f_equal.
        unfold mm_fn. apply sum_lin. intros q Hq. apply in_upto in Hq. rewrite (L i q k) by (repeat split; assumption). cbn [fmul R_arith]. ring.
      * exists (mkShape M 1 1), (val (fc_bias_gradients l)),
          (fun i j k => fmul (val (fc_relu_mask l) i j k) (val g1 i j k)), (fun i j k => fmul (val (fc_relu_mask l) i j k) (val g2 i j k)).
        split; [apply shaped_holds; assumption|]. do 2 (split; [apply holds_of_fun; exact Ao|]).
        eapply holds_ext; [|apply holds_of_fun; exact Ao]. intros i j k Hin. cbv beta; rewrite (L _ _ _ Hin). cbn [fadd fmul R_arith]. ring.
  - destruct (mp_backward_values bm l X Y g1 o1 Ol RM S1 P1 HB) as (p1 & E1 & H1). destruct (mp_backward_values bm l X Y g2 o2 Ol RM S2 P2 HB) as (p2 & E2 & H2).
    destruct (mp_backward_values bm l X Y g3 o3 Ol RM S3 P3 HB) as (p3 & E3 & H3). rewrite E1, E2, E3. cbn [lift3]. do 6 eexists. do 3 (split; [reflexivity|]).
    split; [exact (holds_shaped _ _ _ _ H1)|]. split; [exact (holds_shaped _ _ _ _ H2)|]. split; [exact (holds_shaped _ _ _ _ H3)|]. split; [|constructor].
    intros i j k Hin.
    rewrite (holds_fun bm _ _ _ _ (shaped_holds bm _ _ (holds_shaped _ _ _ _ H1)) H1 i j k Hin).
    rewrite (holds_fun bm _ _ _ _ (shaped_holds bm _ _ (holds_shaped _ _ _ _ H2)) H2 i j k Hin).
    rewrite (holds_fun bm _ _ _ _ (shaped_holds bm _ _ (holds_shaped _ _ _ _ H3)) H3 i j k Hin).
    apply sum_lin. intros q Hq. unfold sources in Hq. apply filter_In in Hq. destruct Hq as (Hq & _). apply in_upto in Hq.
    destruct Ol as (_ & _ & _ & Ht). destruct (Ht RM) as (Lo & _). rewrite Lo in Hq. destruct (flat_surj _ _ Hq) as (x & y & z & Hin' & <-).
    pose proof (L _ _ _ Hin') as W. unfold val in W. rewrite (proj2 S1), (proj2 S2), (proj2 S3) in W. exact W.
  - destruct HB as (B1 & B2). assert (S : sm_shape l = mkShape (di (sm_shape l)) 1 1) by (destruct (sm_shape l); cbn in *; congruence).
    rewrite S in *. destruct (sm_backward_values bm l _ X Y g1 o1 Ol RM S Hy S1 P1) as (l1 & E1). destruct (sm_backward_values bm l _ X Y g2 o2 Ol RM S Hy S2 P2) as (l2 & E2).
    destruct (sm_backward_values bm l _ X Y g3 o3 Ol RM S Hy S3 P3) as (l3 & E3). rewrite E1, E2, E3. cbn [lift3]. do 6 eexists. do 3 (split; [reflexivity|]).
    pose proof (shaped_eq _ _ P1) as (Ai & _). do 3 (split; [apply V; exact Ai|]). split; [|constructor].
    intros i j k Hin. rewrite !val_of_fun by exact Hin. unfold sm_outgoing. pose proof Hin as (Hi & Hj & Hkk). cbn [di dj dk] in *.
    assert (Q : forall i' j', (j' < 1)%N -> mm_fn (di (sm_shape l)) (fun a b c => val Y b a c) (val g3) i' j' k
      = a * mm_fn (di (sm_shape l)) (fun a b c => val Y b a c) (val g1) i' j' k + b * mm_fn (di (sm_shape l)) (fun a b c => val Y b a c) (val g2) i' j' k).
    { intros i' j' Hj'. unfold mm_fn. apply sum_lin. intros q Hq. apply in_upto in Hq. rewrite (L q j' k) by (repeat split; assumption). cbn [fmul R_arith]. ring. }
    rewrite (L _ _ _ Hin). unfold mm_fn at 1 3 5. rewrite (sum_lin a b (fun ii => fmul (val Y i ii k) (fmul (mm_fn (di (sm_shape l)) (fun a b c => val Y b a c) (val g1) ii j k) fmone))
      (fun ii => fmul (val Y i ii k) (fmul (mm_fn (di (sm_shape l)) (fun a b c => val Y b a c) (val g2) ii j k) fmone))).
    + cbn [fadd fmul R_arith]. ring.
    + intros q Hq. rewrite Q by lia. cbn [fmul R_arith]. ring.
Qed.

(** ** The loop over the layers, three runs in step *)
Section Loop.
Context (bm : build) (a b : R) (ls0 : list (layer R)) (st : list T) (s0 : shape).
Context (Hl : linked s0 ls0) (Ho : Forall layer_ok ls0) (Hi : Forall stays_inside ls0) (Hb : Forall backs ls0)
  (Hm : Forall (fun l => get_run_mode l = Training) ls0) (Ss : map tshape st = boundaries ls0) (Ws : Forall wf st).

Definition good (k : nat) (ls : list (layer R)) (grads : list T) (G : T) : Prop :=
  length ls = length ls0 /\ (forall i, (i < k)%nat -> nth_error ls i = nth_error ls0 i) /\ map tshape grads = boundaries ls0 /\ Forall wf grads
  /\ nth_error grads k = Some G.

Lemma bounds k l : nth_error ls0 k = Some l -> nth_error (boundaries ls0) k = Some (get_input_shape l) /\ nth_error (boundaries ls0) (S k) = Some (get_output_shape l).
Proof.
  intros Nl. apply (nth_boundaries ls0 s0 k l Hl); [|exact Nl]. clear - Hl. destruct ls0 as [|x ls']; [left; reflexivity|right]. cbn [linked] in Hl.
  destruct Hl as (<- & _). reflexivity.
Qed.

Lemma good_step k l ls grads G : nth_error ls0 (N.to_nat k) = Some l -> good (S (N.to_nat k)) ls grads G ->
  exists x y og, nth_error st (N.to_nat k) = Some x /\ nth_error st (S (N.to_nat k)) = Some y /\ shaped x (get_input_shape l) /\ shaped y (get_output_shape l)
    /\ shaped G (get_output_shape l) /\ shaped og (get_input_shape l)
    /\ forall l' og', backward bm l x y G og = Done (l', og', Ok tt) -> shaped og' (get_input_shape l) ->
       backward_step bm st k (ls, grads) = Done ((list_set ls (N.to_nat k) l', list_set grads (N.to_nat k) og'), Ok tt)
       /\ good (N.to_nat k) (list_set ls (N.to_nat k) l') (list_set grads (N.to_nat k) og') og'.
Proof.
  intros Nl (Ll & Hls & Sg & Wg & NG). destruct (bounds _ _ Nl) as (B1 & B2).
  destruct (nth_shaped grads ls0 _ _ Sg Wg B1) as (og & No & So). destruct (nth_shaped grads ls0 _ _ Sg Wg B2) as (g & Ng & SG). rewrite NG in Ng. injection Ng as <-.
  destruct (nth_shaped st ls0 _ _ Ss Ws B1) as (x & Nx & Sx). destruct (nth_shaped st ls0 _ _ Ss Ws B2) as (y & Ny & Sy).
  exists x, y, og. do 6 (split; [assumption|]). intros l' og' E So'.
  assert (V : forall (A : Type) (l : list A) i a, nth_error l (N.to_nat i) = Some a -> vget l i = Done a).
  { intros A q i c Q. destruct (vget_some q i) as (c' & Q' & ->); [|congruence]. apply nth_error_Some_lt in Q. unfold len. lia. }
  pose proof (Hls (N.to_nat k) ltac:(lia)) as Nls. rewrite Nl in Nls. split.
  - replace (S (N.to_nat k)) with (N.to_nat (k + 1)) in * by lia. unfold backward_step, get_or_unwrap.
    rewrite (V _ _ _ _ Nls), (V _ _ _ _ Nx), (V _ _ _ _ Ny), (V _ _ _ _ NG), (V _ _ _ _ No). cbn [bind]. rewrite E. cbn [bind].
    rewrite vset_done by (apply nth_error_Some_lt in Nls; unfold len; lia). cbn [bind].
    rewrite vset_done by (apply nth_error_Some_lt in No; unfold len; lia). reflexivity.
  - split; [rewrite length_list_set; exact Ll|]. split; [intros i Hii; rewrite nth_error_list_set_other by lia; apply Hls; lia|].
    split; [rewrite (map_list_set tshape grads _ og' og No); [exact Sg|]; rewrite (proj2 So'), (proj2 So); reflexivity|].
    split; [apply Forall_list_set; [exact Wg|apply So']|]. apply nth_error_list_set_same. apply nth_error_Some_lt in No. exact No.
Qed.

Lemma lin_loop k : (k <= len ls0)%N -> forall l1 l2 l3 g1 g2 g3 G1 G2 G3 s,
  good (N.to_nat k) l1 g1 G1 -> good (N.to_nat k) l2 g2 G2 -> good (N.to_nat k) l3 g3 G3 ->
  nth_error (boundaries ls0) (N.to_nat k) = Some s -> lin s a b (val G1) (val G2) (val G3) ->
  exists l1' l2' l3' g1' g2' g3', tryM (rev (upto k)) (backward_step bm st) (l1, g1) = Done ((l1', g1'), Ok tt)
    /\ tryM (rev (upto k)) (backward_step bm st) (l2, g2) = Done ((l2', g2'), Ok tt)
    /\ tryM (rev (upto k)) (backward_step bm st) (l3, g3) = Done ((l3', g3'), Ok tt)
    /\ (forall i, (N.to_nat k <= i)%nat -> nth_error l1' i = nth_error l1 i /\ nth_error l2' i = nth_error l2 i /\ nth_error l3' i = nth_error l3 i)
    /\ (forall i, (N.to_nat k <= i)%nat -> nth_error g1' i = nth_error g1 i /\ nth_error g2' i = nth_error g2 i /\ nth_error g3' i = nth_error g3 i)
    /\ (forall i l, (i < N.to_nat k)%nat -> nth_error ls0 i = Some l -> exists q1 q2 q3, nth_error l1' i = Some q1 /\ nth_error l2' i = Some q2
         /\ nth_error l3' i = Some q3 /\ layer_combined m bm a b l q1 q2 q3)
    /\ (forall i, (i <= N.to_nat k)%nat -> exists t1 t2 t3, nth_error g1' i = Some t1 /\ nth_error g2' i = Some t2 /\ nth_error g3' i = Some t3
         /\ combined m bm a b t1 t2 t3).
Proof.
  induction k as [|k IH] using N.peano_ind; intros Hk l1 l2 l3 g1 g2 g3 G1 G2 G3 s C1 C2 C3 Bs L.
  - rewrite upto_0. cbn [rev tryM]. do 6 eexists. do 3 (split; [reflexivity|]). split; [auto|]. split; [auto|]. split; [lia|].
    intros i Hii. assert (i = N.to_nat 0) by lia. subst i. destruct C1 as (_ & _ & E1 & W1 & N1), C2 as (_ & _ & E2 & W2 & N2), C3 as (_ & _ & E3 & W3 & N3).
    exists G1, G2, G3. do 3 (split; [assumption|]).
    destruct (nth_shaped g1 ls0 _ _ E1 W1 Bs) as (t1 & M1 & S1). destruct (nth_shaped g2 ls0 _ _ E2 W2 Bs) as (t2 & M2 & S2). destruct (nth_shaped g3 ls0 _ _ E3 W3 Bs) as (t3 & M3 & S3).
    rewrite N1 in M1. rewrite N2 in M2. rewrite N3 in M3. injection M1 as <-. injection M2 as <-. injection M3 as <-. eapply combined_lin; eassumption.
  - rewrite rev_upto_succ. cbn [tryM]. destruct (nth_error ls0 (N.to_nat k)) as [l|] eqn:Nl.
    2: { apply nth_error_None in Nl. unfold len in Hk. lia. }
    replace (N.to_nat (N.succ k)) with (S (N.to_nat k)) in * by lia. pose proof (bounds _ _ Nl) as (B1 & B2). rewrite B2 in Bs. injection Bs as <-.
    destruct (good_step k l l1 g1 G1 Nl C1) as (x & y & o1 & Nx & Ny & Sx & Sy & SG1 & SO1 & Q1).
    destruct (good_step k l l2 g2 G2 Nl C2) as (x2 & y2 & o2 & Nx2 & Ny2 & _ & _ & SG2 & SO2 & Q2). rewrite Nx in Nx2. injection Nx2 as <-. rewrite Ny in Ny2. injection Ny2 as <-.
    destruct (good_step k l l3 g3 G3 Nl C3) as (x3 & y3 & o3 & Nx3 & Ny3 & _ & _ & SG3 & SO3 & Q3). rewrite Nx in Nx3. injection Nx3 as <-. rewrite Ny in Ny3. injection Ny3 as <-.
    destruct (layer_linear bm l x y G1 G2 G3 o1 o2 o3 a b (Forall_nth _ _ _ _ Ho Nl) (Forall_nth _ _ _ _ Hi Nl) (Forall_nth _ _ _ _ Hb Nl) (Forall_nth _ _ _ _ Hm Nl) Sx Sy SG1 SG2 SG3 L SO1 SO2 SO3)
      as (q1 & q2 & q3 & p1 & p2 & p3 & E1 & E2 & E3 & P1 & P2 & P3 & Lp & Lc).
    destruct (Q1 _ _ E1 P1) as (F1 & D1). destruct (Q2 _ _ E2 P2) as (F2 & D2). destruct (Q3 _ _ E3 P3) as (F3 & D3).
    destruct (IH ltac:(lia) _ _ _ _ _ _ _ _ _ _ D1 D2 D3 B1 Lp) as (l1' & l2' & l3' & g1' & g2' & g3' & R1 & R2 & R3 & K & KG & PL & PG).
    exists l1', l2', l3', g1', g2', g3'. rewrite F1, F2, F3. cbn [bind]. do 3 (split; [assumption|]).
    assert (O : forall (A : Type) (q : list A) u i, (S (N.to_nat k) <= i)%nat -> nth_error (list_set q (N.to_nat k) u) i = nth_error q i).
    { intros A q u i Hii. apply nth_error_list_set_other. lia. }
    split; [|split; [|split]].
    + intros i Hii. destruct (K i ltac:(lia)) as (-> & -> & ->). rewrite !O by exact Hii. auto.
    + intros i Hii. destruct (KG i ltac:(lia)) as (-> & -> & ->). rewrite !O by exact Hii. auto.
    + intros i l' Hii Ni. destruct (Nat.eq_dec i (N.to_nat k)) as [->|Ne]; [|apply PL; [lia|exact Ni]]. rewrite Nl in Ni. injection Ni as <-.
      exists q1, q2, q3. destruct (K (N.to_nat k) ltac:(lia)) as (-> & -> & ->). pose proof (nth_error_Some_lt _ _ _ Nl) as Lt.
      rewrite !nth_error_list_set_same by (first [rewrite (proj1 C1)|rewrite (proj1 C2)|rewrite (proj1 C3)]; exact Lt). auto.
    + intros i Hii. destruct (Nat.eq_dec i (S (N.to_nat k))) as [->|Ne]; [|apply PG; lia].
      destruct (KG (S (N.to_nat k)) ltac:(lia)) as (-> & -> & ->). rewrite !O by lia. exists G1, G2, G3. destruct C1 as (_ & _ & _ & _ & N1), C2 as (_ & _ & _ & _ & N2), C3 as (_ & _ & _ & _ & N3).
      do 3 (split; [assumption|]). eapply combined_lin; eassumption.
Qed.

End Loop.

(** ** Networks *)
Lemma net_linear bm (n : network R) (G1 G2 G3 : T) a b :
  net_ok n -> in_training n -> layers n <> [] -> Forall stays_inside (layers n) -> Forall backs (layers n) ->
  shaped G1 (net_output_shape n) -> shaped G2 (net_output_shape n) -> shaped G3 (net_output_shape n) -> combined m bm a b G1 G2 G3 ->
  exists n1 n2 n3, net_backward bm n G1 = Done (n1, Ok tt) /\ net_backward bm n G2 = Done (n2, Ok tt) /\ net_backward bm n G3 = Done (n3, Ok tt)
    /\ (forall i l, nth_error (layers n) i = Some l -> exists q1 q2 q3, nth_error (layers n1) i = Some q1 /\ nth_error (layers n2) i = Some q2
         /\ nth_error (layers n3) i = Some q3 /\ layer_combined m bm a b l q1 q2 q3)
    /\ (forall i, (i <= length (layers n))%nat -> exists t1 t2 t3, nth_error (intermediate_gradients n1) i = Some t1
         /\ nth_error (intermediate_gradients n2) i = Some t2 /\ nth_error (intermediate_gradients n3) i = Some t3 /\ combined m bm a b t1 t2 t3).
Proof.
  intros (St & Lo & Sw & Gw) (RM & M & G) NE NC HB S1 S2 S3 HC. pose proof (lin_combined _ _ _ _ _ _ _ S1 S2 S3 HC) as L.
  pose proof (last_boundary (layers n) (mkShape 0 0 0) NE) as Bs. destruct St as (Hl & H2 & Eo & H4). rewrite <- Eo in Bs.
  assert (Lg : len (intermediate_gradients n) = (len (layers n) + 1)%N) by (rewrite <- (len_map tshape), G; apply boundaries_length; exact NE).
  assert (L1 : (len (layers n) <? 1)%N = false). { destruct (layers n); [congruence|]. unfold len. cbn [length]. lia. }
  assert (Q : forall g : T, shaped g (net_output_shape n) -> good (layers n) (N.to_nat (len (layers n))) (layers n) (list_set (intermediate_gradients n) (N.to_nat (len (layers n))) g) g).
  { intros g Sg. split; [reflexivity|]. split; [reflexivity|]. pose proof Bs as Nb. rewrite <- G in Nb. apply map_nth_is in Nb. destruct Nb as (y & Ny & Sy).
    split; [rewrite (map_list_set tshape _ _ g y Ny); [exact G|rewrite Sy; apply Sg]|]. split; [apply Forall_list_set; [exact Gw|apply Sg]|].
    apply nth_error_list_set_same. unfold len in *. lia. }
  destruct (lin_loop bm a b (layers n) (intermediate_states n) (net_input_shape n) Hl Lo NC HB M H4 Sw (len (layers n)) ltac:(lia) _ _ _ _ _ _ _ _ _ _ (Q _ S1) (Q _ S2) (Q _ S3) Bs L)
    as (l1 & l2 & l3 & g1 & g2 & g3 & E1 & E2 & E3 & _ & _ & PL & PG).
  assert (W : forall g ls gr, shaped g (net_output_shape n) -> tryM (rev (upto (len (layers n)))) (backward_step bm (intermediate_states n))
      (layers n, list_set (intermediate_gradients n) (N.to_nat (len (layers n))) g) = Done ((ls, gr), Ok tt) ->
      exists n', net_backward bm n g = Done (n', Ok tt) /\ layers n' = ls /\ intermediate_gradients n' = gr).
  { intros g ls gr Sg E. unfold net_backward, get_shape. rewrite (proj2 Sg), shape_eqb_refl. cbn [negb]. rewrite L1, RM. cbn [run_state_eqb negb].
    rewrite vset_done by lia. cbn [bind]. rewrite Nrange_upto, E. cbn [bind]. eexists. split; [reflexivity|]. split; reflexivity. }
  destruct (W _ _ _ S1 E1) as (n1 & F1 & <- & <-). destruct (W _ _ _ S2 E2) as (n2 & F2 & <- & <-). destruct (W _ _ _ S3 E3) as (n3 & F3 & <- & <-).
  exists n1, n2, n3. do 3 (split; [assumption|]). split.
  - intros i l Ni. apply PL; [|exact Ni]. apply nth_error_Some_lt in Ni. unfold len. lia.
  - intros i Hi. apply PG. unfold len. lia.
Qed.

End Real.

Theorem backward_linear : forall low (BT : Bits R) bm (n : network R) a b G1 G2 G3 g1 g2,
  let AR := R_arith low in
  training_built bm n -> layers n <> [] -> Forall stays_inside (layers n) -> Forall backs (layers n) ->
  holds bm G1 (net_output_shape n) g1 -> holds bm G2 (net_output_shape n) g2 ->
  holds bm G3 (net_output_shape n) (fun i j k => a * g1 i j k + b * g2 i j k) ->
  exists n1 n2 n3, net_backward bm n G1 = Done (n1, Ok tt) /\ net_backward bm n G2 = Done (n2, Ok tt) /\ net_backward bm n G3 = Done (n3, Ok tt)
    /\ (forall i l, nth_error (layers n) i = Some l -> exists l1 l2 l3, nth_error (layers n1) i = Some l1 /\ nth_error (layers n2) i = Some l2
         /\ nth_error (layers n3) i = Some l3 /\ layer_combined low bm a b l l1 l2 l3)
    /\ (forall i, (i <= length (layers n))%nat -> exists t1 t2 t3, nth_error (intermediate_gradients n1) i = Some t1
         /\ nth_error (intermediate_gradients n2) i = Some t2 /\ nth_error (intermediate_gradients n3) i = Some t3 /\ combined low bm a b t1 t2 t3).
Proof.
  intros low BT bm n a b G1 G2 G3 g1 g2 AR TB NE NC HB H1 H2 H3.
  apply (net_linear low bm n G1 G2 G3 a b).
  - exact (built_ok bm n (relu_agrees_R low) (training_built_well bm n TB)).
  - exact (training_built_in bm n (relu_agrees_R low) TB).
  - exact NE.
  - exact NC.
  - exact HB.
  - exact (holds_shaped _ _ _ _ H1).
  - exact (holds_shaped _ _ _ _ H2).
  - exact (holds_shaped _ _ _ _ H3).
  - exists (net_output_shape n), g1, g2. auto.
Qed.

(** A loss gradient of zero adds nothing. *)
Theorem backward_zero : forall low (BT : Bits R) bm (n : network R) G,
  let AR := R_arith low in
  training_built bm n -> layers n <> [] -> Forall stays_inside (layers n) -> Forall backs (layers n) ->
  holds bm G (net_output_shape n) (fun _ _ _ => 0) ->
  exists n', net_backward bm n G = Done (n', Ok tt)
    /\ (forall i f, nth_error (layers n) i = Some (LFC f) -> exists f', nth_error (layers n') i = Some (LFC f')
         /\ fc_weights_gradients f' = fc_weights_gradients f /\ fc_bias_gradients f' = fc_bias_gradients f)
    /\ (forall i, (i <= length (layers n))%nat -> exists t s, nth_error (intermediate_gradients n') i = Some t /\ holds bm t s (fun _ _ _ => 0)).
Proof.
  intros low BT bm n G AR TB NE NC HB HG.
  destruct (backward_linear low BT bm n 0 0 G G G (fun _ _ _ => 0) (fun _ _ _ => 0) TB NE NC HB HG HG) as (n1 & n2 & n3 & E1 & E2 & E3 & PL & PG).
  { eapply holds_ext; [|exact HG]. intros i j k _. cbv beta; ring. }
  exists n3. split; [exact E3|]. split.
  - intros i f Nf. destruct (PL i _ Nf) as (q1 & q2 & q3 & _ & _ & N3 & C). inversion C as [? f1 f2 f3 CW CB| | |]; subst. exists f3. split; [exact N3|].
    assert (Q : forall t0 t1 t2 t3, combined_from low bm 0 0 t0 t1 t2 t3 -> t3 = t0).
    { intros t0 t1 t2 t3 (s & z & x & y & H0 & _ & _ & H3). apply holds_iff in H0, H3. destruct H0 as (_ & ->), H3 as (_ & ->). apply of_fun_ext. intros; ring. }
    split; [exact (Q _ _ _ _ CW)|exact (Q _ _ _ _ CB)].
  - intros i Hi. destruct (PG i Hi) as (t1 & t2 & t3 & _ & _ & N3 & s & x & y & _ & _ & H). exists t3, s. split; [exact N3|].
    eapply holds_ext; [|exact H]. intros p q r _. cbv beta; ring.
Qed.
