(** * C94: behind softmax a constant added to the gradient of the loss has no effect *)
From Coq Require Import Reals Lra ZifyBool ZifyNat ZifyN.
From Verif Require Import Base Arith Helper Tensor Network Bincode Serial Spec SpecOps SpecLayer SpecNet SpecReal Loops TensorFacts OpsFacts.
From Verif Require Import ProofsTensor Layout LayerFacts BackFacts NetFacts NetRun NetBack ProofsNet ProofsStates ProofsReal ProofsGrad RealArith RealSums RealGrad ProofsLinear ProofsClass.
Ltac Zify.zify_post_hook ::= Z.div_mod_to_equations.
Local Open Scope R_scope.

(** ** The loop over the first [k] layers only looks at the first [k] layers and [k + 1] gradients *)
Section Frame.
Context {F : Type} {AR : Arith F}.

Lemma vget_same {A} (a b : list A) i x : nth_error a (N.to_nat i) = nth_error b (N.to_nat i) -> vget a i = Done x -> vget b i = Done x.
Proof.
  intros E H. apply vget_done in H. destruct H as (_ & H). rewrite E in H. destruct (vget_some b i) as (y & Ny & ->); [|congruence].
  apply nth_error_Some_lt in H. unfold len. lia.
Qed.

Lemma vset_inv {A} (a a' : list A) i x : vset a i x = Done a' -> (N.to_nat i < length a)%nat /\ a' = list_set a (N.to_nat i) x.
Proof.
  intros H. destruct (Nat.lt_ge_cases (N.to_nat i) (length a)) as [L|L].
  - rewrite vset_done in H by (unfold len; lia). injection H as <-. auto.
  - unfold vset in H. replace (i <? len a)%N with false in H by (unfold len; lia). discriminate H.
Qed.

Lemma set_same {A} (a b : list A) k (x : A) i : (k < length a)%nat -> (k < length b)%nat -> nth_error a i = nth_error b i ->
  nth_error (list_set a k x) i = nth_error (list_set b k x) i.
Proof.
  intros La Lb E. destruct (Nat.eq_dec i k) as [->|Ne]; [rewrite !nth_error_list_set_same by assumption; reflexivity|].
  rewrite !nth_error_list_set_other by congruence. exact E.
Qed.

Lemma same_step bm states k (l1 l2 l1' : list (layer F)) g1 g2 g1' r :
  nth_error l1 (N.to_nat k) = nth_error l2 (N.to_nat k) ->
  nth_error g1 (N.to_nat k) = nth_error g2 (N.to_nat k) -> nth_error g1 (S (N.to_nat k)) = nth_error g2 (S (N.to_nat k)) ->
  backward_step bm states k (l1, g1) = Done ((l1', g1'), r) ->
  exists l2' g2', backward_step bm states k (l2, g2) = Done ((l2', g2'), r)
    /\ (forall i, nth_error l1 i = nth_error l2 i -> nth_error l1' i = nth_error l2' i)
    /\ (forall i, nth_error g1 i = nth_error g2 i -> nth_error g1' i = nth_error g2' i).
Proof.
  intros Hl Hg Hg' H. unfold backward_step, get_or_unwrap in *.
  apply bind_done in H. destruct H as (l & Vl & H). rewrite (vget_same _ _ _ _ Hl Vl). cbn [bind].
  replace (S (N.to_nat k)) with (N.to_nat (k + 1)) in Hg' by lia.
  assert (G : forall i t, nth_error g1 (N.to_nat i) = nth_error g2 (N.to_nat i) ->
    match vget g1 i with Done t => Done t | Panic _ => Panic PUnwrap end = Done t -> vget g2 i = Done t).
  { intros i t E Q. destruct (vget g1 i) eqn:V; [|discriminate]. injection Q as <-. eapply vget_same; eassumption. }
  apply bind_done in H. destruct H as (inc & Vi & H). rewrite (G _ _ Hg' Vi). cbn [bind].
  apply bind_done in H. destruct H as (og & Vo & H). rewrite (G _ _ Hg Vo). cbn [bind].
  apply bind_done in H. destruct H as (x & Vx & H). rewrite Vx. cbn [bind].
  apply bind_done in H. destruct H as (y & Vy & H). rewrite Vy. cbn [bind].
  apply bind_done in H. destruct H as (((l' & og') & r') & B & H). rewrite B. cbn [bind].
  apply bind_done in H. destruct H as (ls & S1 & H). apply bind_done in H. destruct H as (gs & S2 & H). injection H as <- <- <-.
  apply vset_inv in S1, S2. destruct S1 as (L1 & ->), S2 as (L2 & ->).
  assert (L1' : (N.to_nat k < length l2)%nat) by (apply nth_error_Some; rewrite <- Hl; apply nth_error_Some; exact L1).
  assert (L2' : (N.to_nat k < length g2)%nat) by (apply nth_error_Some; rewrite <- Hg; apply nth_error_Some; exact L2).
  rewrite !vset_done by (unfold len; lia). cbn [bind]. do 2 eexists. split; [reflexivity|].
  split; intros i E; apply set_same; assumption.
Qed.

Lemma same_loop bm states k : forall (l1 l2 l1' : list (layer F)) g1 g2 g1',
  (forall i, (i < N.to_nat k)%nat -> nth_error l1 i = nth_error l2 i) -> (forall i, (i <= N.to_nat k)%nat -> nth_error g1 i = nth_error g2 i) ->
  tryM (rev (upto k)) (backward_step bm states) (l1, g1) = Done ((l1', g1'), Ok tt) ->
  exists l2' g2', tryM (rev (upto k)) (backward_step bm states) (l2, g2) = Done ((l2', g2'), Ok tt)
    /\ (forall i, nth_error l1 i = nth_error l2 i -> nth_error l1' i = nth_error l2' i)
    /\ (forall i, nth_error g1 i = nth_error g2 i -> nth_error g1' i = nth_error g2' i).
Proof.
  induction k as [|k IH] using N.peano_ind; intros l1 l2 l1' g1 g2 g1' Hl Hg H.
  - rewrite upto_0 in *. cbn [rev tryM] in *. injection H as <- <-. do 2 eexists. split; [reflexivity|]. auto.
  - rewrite rev_upto_succ in *. cbn [tryM] in *. apply bind_done in H. destruct H as (((l3 & g3) & r) & B & H).
    destruct (same_step bm states k l1 l2 l3 g1 g2 g3 r) as (l4 & g4 & B' & Kl & Kg); [apply Hl; lia|apply Hg; lia|apply Hg; lia|exact B|].
    rewrite B'. cbn [bind]. destruct r as [[]|e]; [|discriminate H].
    destruct (IH l3 l4 l1' g3 g4 g1') as (l5 & g5 & B5 & Kl5 & Kg5).
    + intros i Hi. apply Kl, Hl. lia.
    + intros i Hi. apply Kg, Hg. lia.
    + exact H.
    + do 2 eexists. split; [exact B5|]. split; intros i E; [apply Kl5, Kl, E|apply Kg5, Kg, E].
Qed.

Lemma kept_loop bm states k : forall (l l' : list (layer F)) g g' r,
  tryM (rev (upto k)) (backward_step bm states) (l, g) = Done ((l', g'), r) -> forall i, (N.to_nat k <= i)%nat -> nth_error g' i = nth_error g i.
Proof.
  induction k as [|k IH] using N.peano_ind; intros l l' g g' r H i Hi.
  - rewrite upto_0 in H. cbn [rev tryM] in H. injection H as <- <- <-. reflexivity.
  - rewrite rev_upto_succ in H. cbn [tryM] in H. apply bind_done in H. destruct H as (((l3 & g3) & r3) & B & H).
    assert (E : nth_error g3 i = nth_error g i).
    { unfold backward_step in B. do 6 (apply bind_done in B; destruct B as (? & _ & B)). destruct x4 as ((? & ?) & ?).
      apply bind_done in B. destruct B as (? & _ & B). apply bind_done in B. destruct B as (gs & S2 & B). injection B as _ <- _.
      apply vset_inv in S2. destruct S2 as (_ & ->). apply nth_error_list_set_other. lia. }
    destruct r3 as [[]|e]; [|injection H as <- <- <-; exact E]. rewrite <- E. eapply IH; [exact H|lia].
Qed.

Lemma firstn_same {A} k : forall a b : list A, (forall i, (i < k)%nat -> nth_error a i = nth_error b i) -> firstn k a = firstn k b.
Proof.
  induction k as [|k IH]; intros [|x a] [|y b] H; try reflexivity.
  - specialize (H O ltac:(lia)). discriminate H.
  - specialize (H O ltac:(lia)). discriminate H.
  - cbn [firstn]. pose proof (H O ltac:(lia)) as E. cbn in E. injection E as <-. f_equal. apply IH. intros i Hi. apply (H (S i)). lia.
Qed.
End Frame.

(** ** Over the reals *)
Section Real.
Context (low : R).
#[local] Hint Extern 0 (Arith R) => exact (R_arith low) : typeclass_instances.
Notation T := (tensor R).

Lemma sm_shift bm (l : sm_layer R) n y g g' (X Y G G' og og2 : T) :
  sm_ok l -> sm_run_state l = Training -> sm_shape l = mkShape n 1 1 -> Rsum (map (fun p => y p 0%N 0%N) (upto n)) = 1 -> (forall p, y p 0%N 0%N <> 0) ->
  holds bm Y (mkShape n 1 1) y -> holds bm G (mkShape n 1 1) g -> holds bm G' (mkShape n 1 1) g' -> shaped og (mkShape n 1 1) -> shaped og2 (mkShape n 1 1) ->
  exists l1 l2 D D' d d', sm_backward bm l X Y G og = Done (l1, D, Ok tt) /\ sm_backward bm l X Y G' og2 = Done (l2, D', Ok tt)
    /\ holds bm D (mkShape n 1 1) d /\ Rsum (map (fun p => d p 0%N 0%N) (upto n)) = 0
    /\ holds bm D' (mkShape n 1 1) d' /\ Rsum (map (fun p => d' p 0%N 0%N) (upto n)) = 0
    /\ (D = D' <-> exists c, forall i j k, in_shape (mkShape n 1 1) i j k -> g' i j k = g i j k + c).
Proof.
  intros O R S Hy Py HY HG HG' Ho Ho2. destruct (sm_backward_formula bm l n y g X Y G og O R S HY HG Ho) as (l1 & o1 & E1 & H1).
  destruct (sm_backward_formula bm l n y g' X Y G' og2 O R S HY HG' Ho2) as (l2 & o2 & E2 & H2).
  cbn [fadd fmul fzero fmone R_arith] in H1, H2. rewrite sum_Rsum in H1, H2.
  set (S0 := Rsum (map (fun p => y p 0%N 0%N * g p 0%N 0%N) (upto n))) in *. set (S1 := Rsum (map (fun p => y p 0%N 0%N * g' p 0%N 0%N) (upto n))) in *.
  assert (Z : forall h, Rsum (map (fun p => y p 0%N 0%N * h p + (0 + y p 0%N 0%N * (Rsum (map (fun p => y p 0%N 0%N * h p) (upto n)) * -1))) (upto n)) = 0).
  { intros h. set (Sh := Rsum (map (fun p => y p 0%N 0%N * h p) (upto n))).
    rewrite (Rsum_ext _ (fun p => y p 0%N 0%N * h p + - Sh * y p 0%N 0%N)) by (intros; ring). rewrite Rsum_plus, Rsum_scale, Hy. fold Sh. ring. }
  exists l1, l2, o1, o2. do 2 eexists. split; [exact E1|]. split; [exact E2|]. split; [exact H1|]. split; [exact (Z (fun p => g p 0%N 0%N))|].
  split; [exact H2|]. split; [exact (Z (fun p => g' p 0%N 0%N))|]. split.
  - intros <-. exists (S1 - S0). intros i j k Hin. pose proof (holds_fun bm _ _ _ _ H1 H2 i j k Hin) as Q. cbv beta in Q.
    destruct Hin as (_ & Hj & Hk). cbn [di dj dk] in Hj, Hk. assert (j = 0%N) by lia. assert (k = 0%N) by lia. subst.
    apply (Rmult_eq_reg_l (y i 0%N 0%N)); [lra|apply Py].
  - intros (c & Hc). assert (Q : S1 = S0 + c).
    { unfold S1. rewrite (Rsum_ext _ (fun p => y p 0%N 0%N * g p 0%N 0%N + c * y p 0%N 0%N)).
      - rewrite Rsum_plus, Rsum_scale, Hy. fold S0. ring.
      - intros p Hp. apply in_upto in Hp. rewrite Hc by (repeat split; cbn; lia). ring. }
    apply holds_iff in H1, H2. destruct H1 as (_ & ->), H2 as (_ & ->). apply of_fun_ext. intros i j k Hin. rewrite Q.
    destruct Hin as (Hi & Hj & Hk). cbn [di dj dk] in Hi, Hj, Hk. assert (j = 0%N) by lia. assert (k = 0%N) by lia. subst.
    rewrite (Hc i 0%N 0%N) by (repeat split; cbn; lia). ring.
Qed.

Lemma cells_column n : cells (mkShape n 1 1) = map (fun i => (i, 0%N, 0%N)) (upto n).
Proof.
  unfold cells. cbn [di dj dk]. rewrite upto_1. cbn [flat_map map]. rewrite ?app_nil_r. reflexivity.
Qed.

Theorem shift_net (BT : Bits R) bm (n : network R) ls l (X G G' : T) g g' :
  training_built bm n -> layers n = (ls ++ [LSoftmax l])%list -> Forall stays_inside (layers n) -> Forall backs (layers n) ->
  shaped X (net_input_shape n) -> (exists i j k, in_shape (net_output_shape n) i j k) ->
  holds bm G (net_output_shape n) g -> holds bm G' (net_output_shape n) g' ->
  exists n1 n2 n2' D D' d d', infer bm n X = Done (n1, Ok tt) /\ net_backward bm n1 G = Done (n2, Ok tt) /\ net_backward bm n1 G' = Done (n2', Ok tt)
    /\ nth_error (intermediate_gradients n2) (length ls) = Some D /\ nth_error (intermediate_gradients n2') (length ls) = Some D'
    /\ holds bm D (net_output_shape n) d /\ Rsum (map (fun '(i, j, k) => d i j k) (cells (net_output_shape n))) = 0
    /\ holds bm D' (net_output_shape n) d' /\ Rsum (map (fun '(i, j, k) => d' i j k) (cells (net_output_shape n))) = 0
    /\ (D = D' <-> exists c, forall i j k, in_shape (net_output_shape n) i j k -> g' i j k = g i j k + c)
    /\ (D = D' -> firstn (length ls) (layers n2) = firstn (length ls) (layers n2')
         /\ firstn (length ls) (intermediate_gradients n2) = firstn (length ls) (intermediate_gradients n2')).
Proof.
  intros TB EL NC HB SX Hne HG HG'. pose proof (training_built_well bm n TB) as W. pose proof (built_ok bm n (relu_agrees_R low) W) as O0.
  assert (NE : layers n <> []) by (rewrite EL; destruct ls; discriminate).
  destruct (state_step (relu_agrees_R low) bm n X O0 NE SX) as (n1 & E & O1 & _ & St). exists n1.
  assert (TB1 : training_built bm n1) by (apply (train_step bm n (OInfer X) n1 (Ok tt)); [exact TB|apply SX|discriminate|exact E]).
  destruct (St (length ls) (LSoftmax l)) as (Z & Y & NZ & NY & C); [rewrite EL, nth_error_app2, Nat.sub_diag by lia; reflexivity|].
  cbn [params_of] in C. inversion C as [| | |s X0 z Y0 HZ HY]; subst. clear St C.
  assert (SO : net_output_shape n = sm_shape l). { pose proof O0 as (Sn & _). rewrite (output_of_last n ls _ Sn EL). reflexivity. }
  pose proof (infer_kept _ _ _ _ _ E) as (I & _ & _ & Eo & _).
  assert (P1 : map params_of (layers n1) = map params_of (layers n)) by exact (proj1 (ident_split _ _ I)).
  assert (NC1 : Forall stays_inside (layers n1)) by (eapply Forall_params; [|exact P1|exact NC]; intros; eapply back_params; eassumption).
  assert (HB1 : Forall backs (layers n1)) by (eapply Forall_params; [|exact P1|exact HB]; intros; eapply back_params; eassumption).
  assert (Ll : length (layers n1) = S (length ls)) by (apply (f_equal (@length _)) in I; rewrite !map_length, EL, app_length in I; cbn in I; lia).
  destruct (nth_error (layers n1) (length ls)) as [l0|] eqn:N0; [|apply nth_error_None in N0; lia].
  assert (exists l1, l0 = LSoftmax l1 /\ sm_shape l1 = sm_shape l).
  { apply (f_equal (fun q => nth_error q (length ls))) in P1. rewrite !nth_error_map, N0, EL, nth_error_app2, Nat.sub_diag in P1 by lia. cbn in P1.
    destruct l0 as [| | |l1]; try discriminate P1. injection P1 as P1. exists l1. split; [reflexivity|congruence]. }
  destruct H as (l1 & -> & Sl1).
  pose proof O1 as (Stt & Lo & Sw & Gw). pose proof (training_built_in bm n1 (relu_agrees_R low) TB1) as IT. pose proof IT as (RM & M & Gs).
  assert (NE1 : layers n1 <> []) by (intros Q; rewrite Q in N0; destruct (length ls); discriminate N0).
  assert (C1 : dj (sm_shape l) = 1%N /\ dk (sm_shape l) = 1%N).
  { rewrite <- Sl1. exact (Forall_nth _ _ _ _ HB1 N0). }
  assert (exists m, net_output_shape n = mkShape m 1 1) as (m & Em).
  { exists (di (sm_shape l)). rewrite SO. destruct (sm_shape l) as [a b d]. cbn in C1 |- *. destruct C1 as (-> & ->). reflexivity. }
  rewrite Em in *. rewrite <- SO in HZ, HY, Sl1.
  assert (Hy : Rsum (map (fun p => @fdiv R (R_arith low) (exp (z p 0%N 0%N)) (sum (map (fun '(i, j, k) => fexp (z i j k)) (cells (mkShape m 1 1))))) (upto m)) = 1).
  { cbn [fdiv fexp R_arith]. rewrite sum_Rsum. set (S0 := Rsum (map (fun '(i, j, k) => exp (z i j k)) _)).
    assert (HS : 0 < S0).
    { apply Rsum_pos; [|intros ((i' & j') & k') _; apply exp_pos]. destruct Hne as (i & j & k & Hin). intros Q. apply in_cells in Hin. rewrite Q in Hin. destruct Hin. }
    rewrite (Rsum_ext _ (fun p => exp (z p 0%N 0%N) * / S0)) by (intros; reflexivity).
    rewrite Rsum_scale_r. replace (Rsum _) with S0; [apply Rinv_r; lra|].
    unfold S0. rewrite cells_column, map_map. reflexivity. }
  destruct (net_backward_total bm n1 G O1 IT NC1 (proj1 (holds_shaped _ _ _ _ HG))) as (n2 & r & B & Hr).
  rewrite Hr in B by (first [exact NE1|exact HB1|rewrite Eo; exact (proj2 (holds_shaped _ _ _ _ HG))]). clear Hr r.
  destruct (net_backward_total bm n1 G' O1 IT NC1 (proj1 (holds_shaped _ _ _ _ HG'))) as (n2' & r & B' & Hr).
  rewrite Hr in B' by (first [exact NE1|exact HB1|rewrite Eo; exact (proj2 (holds_shaped _ _ _ _ HG'))]). clear Hr r.
  assert (Lg : len (intermediate_gradients n1) = (len (layers n1) + 1)%N) by (rewrite <- (len_map tshape), Gs; apply boundaries_length; exact NE1).
  assert (L1 : (len (layers n1) <? 1)%N = false) by (unfold len; lia).
  assert (Lk : len (layers n1) = N.succ (len ls)) by (unfold len; lia).
  assert (U : forall t : T, shaped t (mkShape m 1 1) -> net_backward bm n1 t =
    '((ls', grads'), r) <- tryM (len ls :: rev (upto (len ls))) (backward_step bm (intermediate_states n1))
         (layers n1, list_set (intermediate_gradients n1) (S (length ls)) t) ;;
    Done (mkNet ls' (intermediate_states n1) grads' (net_input_shape n1) (net_output_shape n1) (net_run_state n1), r)).
  { intros t Sg. unfold net_backward, get_shape. rewrite (proj2 Sg), Eo, shape_eqb_refl. cbn [negb]. rewrite L1, RM. cbn [run_state_eqb negb].
    rewrite vset_done by lia. cbn [bind]. rewrite Nrange_upto, Lk, rev_upto_succ. replace (N.to_nat (N.succ (len ls))) with (S (length ls)) by (unfold len; lia). reflexivity. }
  pose proof (last_boundary (layers n1) (mkShape 0 0 0) NE1) as Bs. destruct Stt as (Hl & H2 & Eo' & H4). rewrite <- Eo', Eo in Bs.
  replace (N.to_nat (len (layers n1))) with (S (length ls)) in Bs by (unfold len; lia).
  assert (Q : forall t : T, shaped t (mkShape m 1 1) -> ProofsLinear.good (layers n1) (S (length ls)) (layers n1) (list_set (intermediate_gradients n1) (S (length ls)) t) t).
  { intros t Sg. split; [reflexivity|]. split; [reflexivity|]. pose proof Bs as Nb. rewrite <- Gs in Nb. apply map_nth_is in Nb. destruct Nb as (y & Ny & Sy).
    split; [rewrite (map_list_set tshape _ _ t y Ny); [exact Gs|rewrite Sy; apply Sg]|]. split; [apply Forall_list_set; [exact Gw|apply Sg]|].
    apply nth_error_list_set_same. unfold len in *. lia. }
  replace (length ls) with (N.to_nat (len ls)) in Q, N0 by (unfold len; lia).
  destruct (ProofsLinear.good_step low bm (layers n1) (intermediate_states n1) (net_input_shape n1) Hl H4 Sw (len ls) _ _ _ _ N0 (Q _ (holds_shaped _ _ _ _ HG)))
    as (x & y & og & Nx & Ny & Sx & Sy & SG & SO1 & K1).
  destruct (ProofsLinear.good_step low bm (layers n1) (intermediate_states n1) (net_input_shape n1) Hl H4 Sw (len ls) _ _ _ _ N0 (Q _ (holds_shaped _ _ _ _ HG')))
    as (x' & y' & og' & Nx' & Ny' & _ & _ & SG' & SO1' & K1').
  replace (S (N.to_nat (len ls))) with (S (length ls)) in * by (unfold len; lia). replace (N.to_nat (len ls)) with (length ls) in * by (unfold len; lia).
  assert (x' = x) by congruence. assert (y' = y) by congruence. subst x' y'. rewrite NY in Ny. injection Ny as <-.
  cbn [get_input_shape get_output_shape] in Sx, Sy, SG, SO1, SG', SO1', K1, K1'. rewrite Sl1 in *.
  assert (Py : forall p, @fdiv R (R_arith low) (exp (z p 0%N 0%N)) (sum (map (fun '(i, j, k) => fexp (z i j k)) (cells (mkShape m 1 1)))) <> 0).
  { intros p. cbn [fdiv fexp R_arith]. rewrite sum_Rsum. apply Rgt_not_eq, Rdiv_lt_0_compat; [apply exp_pos|].
    apply Rsum_pos; [|intros ((i' & j') & k') _; apply exp_pos]. destruct Hne as (i & j & k & Hin). intros Q0. apply in_cells in Hin. rewrite Q0 in Hin. destruct Hin. }
  destruct (sm_shift bm l1 m _ g g' x Y G G' og og' (Forall_nth _ _ _ _ Lo N0) (Forall_nth _ _ _ _ M N0) Sl1 Hy Py HY HG HG' SO1 SO1')
    as (q1 & q2 & D & D' & d & d' & E1 & E2 & HD & Sd & HD' & Sd' & Iff).
  destruct (K1 (LSoftmax q1) D) as (F1 & _); [cbn [backward]; rewrite E1; reflexivity|exact (holds_shaped _ _ _ _ HD)|].
  destruct (K1' (LSoftmax q2) D') as (F2 & _); [cbn [backward]; rewrite E2; reflexivity|exact (holds_shaped _ _ _ _ HD')|].
  rewrite U in B by exact (holds_shaped _ _ _ _ HG). cbn [tryM] in B. rewrite F1 in B. cbn [bind] in B.
  apply bind_done in B. destruct B as (((la & ga) & r) & B & Q2). injection Q2 as <- ->.
  rewrite U in B' by exact (holds_shaped _ _ _ _ HG'). cbn [tryM] in B'. rewrite F2 in B'. cbn [bind] in B'.
  apply bind_done in B'. destruct B' as (((lb & gb) & r) & B' & Q2). injection Q2 as <- ->.
  eexists _, _, D, D', d, d'. split; [exact E|]. split; [rewrite U by exact (holds_shaped _ _ _ _ HG); cbn [tryM]; rewrite F1; cbn [bind]; rewrite B; reflexivity|].
  split; [rewrite U by exact (holds_shaped _ _ _ _ HG'); cbn [tryM]; rewrite F2; cbn [bind]; rewrite B'; reflexivity|].
  cbn [layers intermediate_gradients].
  split; [rewrite (kept_loop _ _ _ _ _ _ _ _ B) by (unfold len; lia); apply nth_error_list_set_same; rewrite length_list_set; unfold len in *; lia|].
  split; [rewrite (kept_loop _ _ _ _ _ _ _ _ B') by (unfold len; lia); apply nth_error_list_set_same; rewrite length_list_set; unfold len in *; lia|].
  split; [exact HD|]. split; [rewrite cells_column, map_map; exact Sd|]. split; [exact HD'|]. split; [rewrite cells_column, map_map; exact Sd'|]. split; [exact Iff|].
  intros <-.
  destruct (same_loop bm (intermediate_states n1) (len ls) (list_set (layers n1) (length ls) (LSoftmax q1)) (list_set (layers n1) (length ls) (LSoftmax q2)) la
     (list_set (list_set (intermediate_gradients n1) (S (length ls)) G) (length ls) D)
     (list_set (list_set (intermediate_gradients n1) (S (length ls)) G') (length ls) D) ga) as (lc & gc & B2 & Kl & Kg); [| |exact B|].
  - intros i Hi. rewrite !nth_error_list_set_other by (unfold len in Hi; lia). reflexivity.
  - intros i Hi. apply set_same; [rewrite length_list_set; unfold len in *; lia..|].
    rewrite !nth_error_list_set_other by (unfold len in Hi; lia). reflexivity.
  - rewrite B' in B2. injection B2 as <- <-. split.
    + apply firstn_same. intros i Hi. apply Kl. rewrite !nth_error_list_set_other by lia. reflexivity.
    + apply firstn_same. intros i Hi. apply Kg. apply set_same; [rewrite length_list_set; unfold len in *; lia..|].
      rewrite !nth_error_list_set_other by lia. reflexivity.
Qed.
End Real.
