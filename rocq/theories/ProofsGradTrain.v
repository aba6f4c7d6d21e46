(** * f32 training of whole networks against exact training *)
From Coq Require Import Reals Lra ZifyBool ZifyNat ZifyN.
From Verif Require Import Base Arith Helper Tensor Network Bincode Serial Spec SpecLayer SpecNet SpecReal SpecTrain Loops TensorFacts OpsFacts ProofsTensor Layout LayerFacts BackFacts NetFacts NetRun NetBack RealArith RealSums Float32.
From Verif Require Import SpecError FloatError SpecNetError SpecModes SpecBatch SpecGrid SpecGridBack ProofsFloat ProofsLayer ProofsGrad ProofsNetError ProofsGrid Lockstep ProofsGridBack SpecChain ProofsBatch ProofsGridTrain SpecGradError ProofsAccum ProofsGradError.
Local Open Scope R_scope.

Section Two.
Context (e : env) (low : R) (bm : build).
Notation AF := (f32_arith e).
Notation AR := (R_arith low).
Notation pr := (paired e low).

Definition layer_tracked (k : nat) (a b : span) (l : layer f32) (l' : layer R) : Prop :=
  match l, l' with
  | LFC f, LFC f' => exists m n, fc_ok m n f /\ fc_ok m n f' /\ fc_tracked e low k a b m n f f'
  | _, _ => True
  end.

(** The forward pass keeps pairs. *)
Lemma forward_near a d a1 d1 (l0 l1 : layer f32) (l0' l1' : layer R) x x' y0 y0' y y' :
  layer_ok l0 -> layer_ok l0' -> exact_params (params_of l0) (params_of l0') -> layer_bounds e low bm (params_of l0') a d a1 d1 -> 0 <= a -> 0 <= d ->
  pr a d (get_input_shape l0) x x' -> shaped y0 (get_output_shape l0) -> shaped y0' (get_output_shape l0) ->
  @forward bm f32 AF l0 x y0 = Done (l1, y, Ok tt) -> @forward bm R AR l0' x' y0' = Done (l1', y', Ok tt) ->
  pr a1 d1 (get_output_shape l0) y y' /\ @computes R AR bm (params_of l0') x' y'.
Proof.
  intros O O' EP LB Pa Pd (SX & SX' & XX) SY SY' EF EF'. destruct (exact_shapes _ _ EP) as (Ei & Eo).
  destruct (@forward_ok f32 AF bm l0 x y0 (f32_relu_agrees e) O SX SY) as (a2 & b2 & Q & C & H). rewrite EF in Q. injection Q as <- <-.
  destruct (@forward_ok R AR bm l0' x' y0' (relu_agrees_R low) O') as (a2 & b2 & Q & C' & _); [rewrite Ei; exact SX'|rewrite Eo; exact SY'|]. rewrite EF' in Q. injection Q as <- <-.
  split; [|exact C'].
  destruct (layer_near e low bm _ _ x x' y y' _ _ _ a d a1 d1 EP C C' (shaped_holds bm _ _ SX) (shaped_holds bm _ _ SX') Pa Pd XX LB) as (_ & _ & s1 & v & v' & Hy & Hy' & EY).
  destruct H as (_ & Sy & _).
  pose proof (holds_shape _ _ _ _ _ _ Hy (shaped_holds bm _ _ Sy)) as ->. eapply paired_holds; eassumption.
Qed.

Lemma layer_near_round K k a b (l0 l1 l2 : layer f32) (l0' l1' l2' : layer R) x x' y0 y0' y y' g g' o0 o0' og og' :
  layer_ok l0 -> layer_ok l0' -> get_run_mode l0 = Training -> get_run_mode l0' = Training ->
  exact_params (params_of l0) (params_of l0') -> layer_slopes e low bm K (params_of l0') a b -> layer_firm low bm (params_of l0') a b x' ->
  0 <= xa a -> 0 <= xd a -> 0 <= ga b -> 0 <= gd b -> (k + 1 <= K)%nat ->
  pr (xa a) (xd a) (get_input_shape l0) x x' -> pr (ga b) (gd b) (get_output_shape l0) g g' -> layer_tracked k a b l0 l0' ->
  shaped y0 (get_output_shape l0) -> shaped y0' (get_output_shape l0) -> shaped o0 (get_input_shape l0) -> shaped o0' (get_input_shape l0) ->
  @forward bm f32 AF l0 x y0 = Done (l1, y, Ok tt) -> @forward bm R AR l0' x' y0' = Done (l1', y', Ok tt) ->
  @backward bm f32 AF l1 x y g o0 = Done (l2, og, Ok tt) -> @backward bm R AR l1' x' y' g' o0' = Done (l2', og', Ok tt) ->
  pr (ga a) (gd a) (get_input_shape l0) og og' /\ layer_tracked (k + 1) a b l2 l2'.
Proof.
  intros O O' Tr Tr' EP LT Fi Pa Pd Pg Ph Hk TX TG TL SY SY' So So' EF EF' EB EB'.
  destruct (forward_near _ _ _ _ l0 l1 l0' l1' x x' y0 y0' y y' O O' EP (slopes_bounds _ _ _ _ _ _ _ LT) Pa Pd TX SY SY' EF EF') as (TY & CY).
  destruct l0 as [l|l|l|l], l0' as [l'|l'|l'|l']; try contradiction EP; cbn [params_of] in *; try (inversion LT; fail).
  - destruct TL as (m & n & Om & Om' & TL). cbn [get_run_mode get_input_shape get_output_shape] in *. cbn [forward] in EF, EF'.
    apply bind_done in EF. destruct EF as (((f1 & yy) & r) & EF & Q). injection Q as <- -> ->.
    apply bind_done in EF'. destruct EF' as (((f1' & yy') & r) & EF' & Q). injection Q as <- -> ->.
    cbn [backward] in EB, EB'.
    apply bind_done in EB. destruct EB as (((f2 & oo) & r) & EB & Q). injection Q as <- -> ->.
    apply bind_done in EB'. destruct EB' as (((f2' & oo') & r) & EB' & Q). injection Q as <- -> ->.
    pose proof Om as (Ow & Ob & _). unfold fc_input_shape, fc_output_shape, get_shape in *. rewrite (proj2 Ow) in *. cbn [dj] in *. 
    rewrite (proj2 Ob) in *.
    destruct (fc_near_round e low bm K k a b m n l l' x x' y0 y0' g g' o0 o0' f1 f1' y y' f2 f2' og og') as (T2 & T3); try assumption; try apply EP.
    split; [exact T2|]. exists m, n. split; [|split; [|exact T3]].
    + destruct (@fc_forward_ok f32 AF bm l m n x y0 (f32_relu_agrees e) Om (proj1 TX) SY) as (p & q & Q & _ & O1 & _). rewrite EF in Q. injection Q as <- _. eapply (@fc_backward_ok f32 AF); eassumption.
    + destruct (@fc_forward_ok R AR bm l' m n x' y0' (relu_agrees_R low) Om' (proj1 (proj2 TX)) SY') as (p & q & Q & _ & O1 & _). rewrite EF' in Q. injection Q as <- _. eapply (@fc_backward_ok R AR); eassumption.
  - cbn [get_run_mode get_input_shape get_output_shape] in *. cbn [forward] in EF, EF'.
    apply bind_done in EF. destruct EF as (((f1 & yy) & r) & EF & Q). injection Q as <- -> ->.
    apply bind_done in EF'. destruct EF' as (((f1' & yy') & r) & EF' & Q). injection Q as <- -> ->.
    cbn [backward] in EB, EB'.
    apply bind_done in EB. destruct EB as (((f2 & oo) & r) & EB & Q). injection Q as <- -> ->.
    apply bind_done in EB'. destruct EB' as (((f2' & oo') & r) & EB' & Q). injection Q as <- -> ->.
    split; [|exact I]. eapply (mp_near_round e low bm K a b l l'); eassumption.
  - cbn [get_run_mode get_input_shape get_output_shape exact_params] in *. cbn [forward] in EF, EF'.
    apply bind_done in EF. destruct EF as (((f1 & yy) & r) & EF & Q). injection Q as <- -> ->.
    apply bind_done in EF'. destruct EF' as (((f1' & yy') & r) & EF' & Q). injection Q as <- -> ->.
    unfold sm_forward in EF, EF'. apply bind_done in EF. destruct EF as (o & _ & Q). injection Q as <- ->.
    apply bind_done in EF'. destruct EF' as (o & _ & Q). injection Q as <- ->.
    cbn [backward] in EB, EB'.
    apply bind_done in EB. destruct EB as (((f2 & oo) & r) & EB & Q). injection Q as <- -> ->.
    apply bind_done in EB'. destruct EB' as (((f2' & oo') & r) & EB' & Q). injection Q as <- -> ->.
    split; [|exact I]. eapply (sm_near_round e low bm K a b l l'); eassumption.
Qed.

(** ** Spans along a network *)
Lemma spans_nth K ps : forall u us, net_slopes e low bm K ps u us -> length us = length ps /\
  forall i p, nth_error ps i = Some p -> exists a b, nth_error (u :: us) i = Some a /\ nth_error (u :: us) (S i) = Some b /\ layer_slopes e low bm K p a b.
Proof.
  induction ps as [|p ps IH]; intros u [|v us] H; try contradiction H.
  - split; [reflexivity|]. intros [|i] p; discriminate.
  - destruct H as (H1 & H2). destruct (IH v us H2) as (L & I). split; [cbn; lia|]. intros [|i] q N; [injection N as <-; exists u, v; auto|apply I; exact N].
Qed.

Lemma spans_last K ps : forall u us, net_slopes e low bm K ps u us -> nth_error (u :: us) (length ps) = Some (last us u).
Proof.
  induction ps as [|p ps IH]; intros u [|v us] H; try contradiction H; [reflexivity|]. destruct H as (_ & H). cbn [length nth_error].
  rewrite last_cons. exact (IH v us H).
Qed.

Definition span_pos (a : span) : Prop := 0 <= xa a /\ 0 <= xd a /\ 0 <= ga a /\ 0 <= gd a.

Lemma spans_pos K ps : forall u us, net_slopes e low bm K ps u us -> 0 <= xa u -> 0 <= xd u -> 0 <= ga (last us u) -> 0 <= gd (last us u) ->
  forall i a, nth_error (u :: us) i = Some a -> span_pos a.
Proof.
  induction ps as [|p ps IH]; intros u [|v us] H Pa Pd Pg Ph; try contradiction H.
  - intros [|[|i]] a N; try discriminate. injection N as <-. repeat split; assumption.
  - destruct H as (H1 & H2). destruct (layer_bounds_pos _ _ _ _ _ _ _ _ (slopes_bounds _ _ _ _ _ _ _ H1) Pa Pd) as (Pv & Pw).
    rewrite last_cons in Pg, Ph. pose proof (IH v us H2 Pv Pw Pg Ph) as I. intros [|i] a N; [|exact (I i a N)]. injection N as <-.
    destruct (I 0%nat v eq_refl) as (_ & _ & P3 & P4). destruct (slopes_pos _ _ _ _ _ _ _ H1 Pa Pd P3 P4). repeat split; assumption.
Qed.

Lemma firm_step ps us i p a b X : nth_error ps i = Some p -> nth_error us i = Some b -> firm low bm (skipn i ps) a (skipn i us) X ->
  layer_firm low bm p a b X /\ forall Z, @computes R AR bm p X Z -> firm low bm (skipn (S i) ps) b (skipn (S i) us) Z.
Proof.
  revert ps us. induction i as [|i IH]; intros [|q ps] [|c us] Np Nb; try discriminate.
  - injection Np as ->. injection Nb as ->. cbn [skipn firm]. auto.
  - cbn [nth_error] in Np, Nb. intros H. cbn [skipn] in H. exact (IH ps us Np Nb H).
Qed.

Lemma layer_firm_smooth p a b X : layer_firm low bm p a b X -> 0 <= xd b -> layer_smooth low bm p X.
Proof.
  intros H P. destruct p as [w c|kernels biases stride ins outs|ins mask outs stride|s]; cbn [layer_firm layer_smooth] in *.
  - intros m n w' c' x Hw Hc Hx i Hi E. pose proof (H m n w' c' x Hw Hc Hx i Hi) as L. rewrite E, Rabs_R0 in L. lra.
  - contradiction H.
  - destruct H as (x & win & Hx & Hw & _). eauto.
  - exact I.
Qed.

Lemma firm_smooth K ps : forall u us X, net_slopes e low bm K ps u us -> 0 <= xa u -> 0 <= xd u -> firm low bm ps u us X -> smooth low bm ps X.
Proof.
  induction ps as [|p ps IH]; intros u [|v us] X H Pa Pd F; try contradiction H; [exact I|]. destruct H as (H1 & H2). destruct F as (F1 & F2).
  destruct (layer_bounds_pos _ _ _ _ _ _ _ _ (slopes_bounds _ _ _ _ _ _ _ H1) Pa Pd) as (Pv & Pw). split; [eapply layer_firm_smooth; eassumption|].
  intros Z CZ. exact (IH v us Z H2 Pv Pw (F2 Z CZ)).
Qed.

Definition net_tracked (k : nat) (lv : list span) (n : network f32) (n' : network R) : Prop :=
  forall i l l' a b, nth_error (layers n) i = Some l -> nth_error (layers n') i = Some l' -> nth_error lv i = Some a -> nth_error lv (S i) = Some b ->
    layer_tracked k a b l l'.

Lemma exact_boundaries (ls : list (layer f32)) : forall (ls' : list (layer R)), Forall2 exact_params (map params_of ls) (map params_of ls') -> boundaries ls' = boundaries ls.
Proof.
  induction ls as [|l ls IH]; intros [|l' ls'] EP; inversion EP as [|? ? ? ? E1 E2]; subst; [reflexivity|].
  destruct (exact_shapes _ _ E1) as (Ei & Eo). unfold boundaries. cbn [map]. rewrite Ei, Eo. f_equal. f_equal.
  clear - E2. revert ls' E2. induction ls as [|l ls IH]; intros [|l' ls'] E2; inversion E2 as [|? ? ? ? E1 E3]; subst; [reflexivity|]. cbn [map].
  rewrite (proj2 (exact_shapes _ _ E1)). f_equal. apply IH. exact E3.
Qed.

Lemma net_near_round {BT : Bits R} K k u us (n : network f32) (n' : network R) X X' G G' :
  net_ok n -> net_ok n' -> in_training n -> in_training n' -> layers n <> [] ->
  Forall2 exact_params (map params_of (layers n)) (map params_of (layers n')) ->
  net_slopes e low bm K (map params_of (layers n')) u us -> 0 <= xa u -> 0 <= xd u -> 0 <= ga (last us u) -> 0 <= gd (last us u) -> (k + 1 <= K)%nat ->
  firm low bm (map params_of (layers n')) u us X' ->
  pr (xa u) (xd u) (net_input_shape n) X X' -> pr (ga (last us u)) (gd (last us u)) (net_output_shape n) G G' ->
  net_tracked k (u :: us) n n' ->
  exists n1 n2 n1' n2',
    @infer bm f32 AF n X = Done (n1, Ok tt) /\ @net_backward bm f32 AF n1 G = Done (n2, Ok tt)
    /\ @infer bm R AR n' X' = Done (n1', Ok tt) /\ @net_backward bm R AR n1' G' = Done (n2', Ok tt)
    /\ net_tracked (k + 1) (u :: us) n2 n2'.
Proof.
  intros On On' Tn Tn' NE EP NT Pa Pd Pg Ph Hk Fi TX TG Tw.
  destruct (spans_nth _ _ _ _ NT) as (Lu & Lv). rewrite map_length in Lu. pose proof (spans_pos _ _ _ _ NT Pa Pd Pg Ph) as Pos. pose proof (spans_last _ _ _ _ NT) as Last.
  rewrite map_length in Last. assert (Len : length (layers n') = length (layers n)) by (pose proof (Forall2_len _ _ _ EP) as Q; rewrite !map_length in Q; lia).
  assert (Lv' : forall i l', nth_error (layers n') i = Some l' -> exists l a b, nth_error (layers n) i = Some l /\ exact_params (params_of l) (params_of l')
    /\ nth_error (u :: us) i = Some a /\ nth_error (u :: us) (S i) = Some b /\ layer_slopes e low bm K (params_of l') a b).
  { intros i l' N. destruct (exact_layers n n' i l' EP N) as (l & Nl & El). destruct (Lv i (params_of l')) as (a & b & Na & Nb & LT); [rewrite nth_error_map, N; reflexivity|].
    exists l, a, b. auto. }
  assert (NE' : layers n' <> []) by (destruct (layers n'), (layers n); try discriminate; congruence).
  assert (NC' : Forall stays_inside (layers n') /\ Forall backs (layers n')).
  { split; apply Forall_forall; intros l' Hl; apply In_nth_error in Hl; destruct Hl as (i & Ni); destruct (Lv' i l' Ni) as (l & a & b & _ & _ & _ & _ & LT);
      destruct l'; cbn [params_of] in LT; inversion LT; subst; cbn; auto; try (match goal with H : mkShape _ 1 1 = sm_shape _ |- _ => rewrite <- H; cbn; auto end); try (match goal with H : sm_shape _ = mkShape _ 1 1 |- _ => rewrite H; cbn; auto end). }
  assert (NC : Forall stays_inside (layers n) /\ Forall backs (layers n)).
  { split; apply Forall_forall; intros l Hl; apply In_nth_error in Hl; destruct Hl as (i & Ni); destruct (nth_error (layers n') i) as [l'|] eqn:N';
      try (apply nth_error_None in N'; apply nth_error_Some_lt in Ni; lia); destruct (Lv' i l' N') as (l1 & a & b & Nl & El & _ & _ & LT); rewrite Ni in Nl; injection Nl as <-;
      destruct l, l'; cbn [params_of exact_params] in LT, El; try contradiction El; inversion LT; subst; cbn; auto; try (destruct El as (E1 & _); rewrite <- E1; assumption); try (rewrite <- El); try (match goal with H : mkShape _ 1 1 = sm_shape _ |- _ => rewrite <- H; cbn; auto end); try (match goal with H : sm_shape _ = mkShape _ 1 1 |- _ => rewrite H; cbn; auto end). }
  destruct NC as (NC & Bk), NC' as (NC' & Bk').
  assert (EB : boundaries (layers n') = boundaries (layers n)) by (apply exact_boundaries; exact EP).
  assert (EI : net_input_shape n' = net_input_shape n) by (pose proof On as ((_ & H2 & _) & _); pose proof On' as ((_ & H2' & _) & _); rewrite H2, H2', EB; reflexivity).
  assert (EO : net_output_shape n' = net_output_shape n) by (pose proof On as ((_ & _ & H3 & _) & _); pose proof On' as ((_ & _ & H3' & _) & _); rewrite H3, H3', EB; reflexivity).
  destruct (@round_trace f32 AF bm n X G (f32_relu_agrees e) On Tn NE NC Bk (proj1 TX) (proj1 TG)) as (n1 & n2 & st & gr & I1 & B1 & S0 & GL & Id & Rd).
  destruct (@round_trace R AR bm n' X' G' (relu_agrees_R low) On' Tn' NE' NC' Bk') as (n1' & n2' & st' & gr' & I1' & B1' & S0' & GL' & Id' & Rd');
    [rewrite EI; apply TX|rewrite EO; apply TG|].
  exists n1, n2, n1', n2'. split; [exact I1|]. split; [exact B1|]. split; [exact I1'|]. split; [exact B1'|].
  pose proof On as (_ & Lo & _). pose proof On' as (_ & Lo' & _). pose proof Tn as (_ & Mo & _). pose proof Tn' as (_ & Mo' & _).
  (* forwards *)
  assert (FW : forall i a x x', (i <= length (layers n))%nat -> nth_error (u :: us) i = Some a -> nth_error st i = Some x -> nth_error st' i = Some x' ->
    (exists s, pr (xa a) (xd a) s x x') /\ firm low bm (skipn i (map params_of (layers n'))) a (skipn i us) x').
  { induction i as [|i IH]; intros a x x' Hi Na Nx Nx'.
    - injection Na as <-. rewrite S0 in Nx. rewrite S0' in Nx'. injection Nx as <-. injection Nx' as <-. split; [exists (net_input_shape n); exact TX|exact Fi].
    - destruct (nth_error (layers n') i) as [l'|] eqn:N'; [|apply nth_error_None in N'; lia].
      destruct (Lv' i l' N') as (l & b & c & Nl & El & Nb & Nc & LT). rewrite Na in Nc. injection Nc as <-.
      destruct (Rd i l Nl) as (l1 & l2 & x0 & y0 & y & g & og0 & og & _ & R1 & R2 & _ & _ & R3 & R4 & _ & _ & R5 & _).
      destruct (Rd' i l' N') as (l1' & l2' & x0' & y0' & y' & g' & og0' & og' & _ & Q1 & Q2 & _ & _ & Q3 & Q4 & _ & _ & Q5 & _).
      destruct (IH b x0 x0' ltac:(lia) Nb R1 Q1) as ((s & T) & Fr). rewrite R2 in Nx. rewrite Q2 in Nx'. injection Nx as <-. injection Nx' as <-.
      assert (s = get_input_shape l) as -> by (destruct T as ((_ & <-) & _); apply R3).
      rewrite (proj2 (exact_shapes _ _ El)) in Q4. destruct (Pos _ _ Nb) as (P1 & P2 & _).
      destruct (forward_near _ _ _ _ l l1 l' l1' x0 x0' y0 y0' y y' (Forall_nth _ _ _ _ Lo Nl) (Forall_nth _ _ _ _ Lo' N') El (slopes_bounds _ _ _ _ _ _ _ LT) P1 P2 T R4 Q4 R5 Q5) as (T1 & CY).
      split; [exists (get_output_shape l); exact T1|].
      destruct (firm_step (map params_of (layers n')) us i (params_of l') b a x0') as (_ & Fs); [rewrite nth_error_map, N'; reflexivity|exact Na|exact Fr|]. exact (Fs y' CY). }
  (* one layer, given its incoming gradient *)
  assert (LR : forall i l l' a b g g' s, nth_error (layers n) i = Some l -> nth_error (layers n') i = Some l' -> nth_error (u :: us) i = Some a -> nth_error (u :: us) (S i) = Some b ->
    nth_error gr (S i) = Some g -> nth_error gr' (S i) = Some g' -> pr (ga b) (gd b) s g g' ->
    exists l2 l2' og og', nth_error (layers n2) i = Some l2 /\ nth_error (layers n2') i = Some l2' /\ nth_error gr i = Some og /\ nth_error gr' i = Some og'
      /\ pr (ga a) (gd a) (get_input_shape l) og og' /\ layer_tracked (k + 1) a b l2 l2').
  { intros i l l' a b g0 g0' s Nl N' Na Nb Ng Ng' T.
    destruct (Lv' i l' N') as (l3 & a3 & b3 & Nl3 & El & Na3 & Nb3 & LT). rewrite Nl in Nl3. rewrite Na in Na3. rewrite Nb in Nb3.
    injection Nl3 as <-. injection Na3 as <-. injection Nb3 as <-.
    destruct (Rd i l Nl) as (l1 & l2 & x0 & y0 & y & g & og0 & og & R0 & R1 & R2 & R8 & R9 & R3 & R4 & R6 & R7 & R5 & R10).
    destruct (Rd' i l' N') as (l1' & l2' & x0' & y0' & y' & g' & og0' & og' & Q0 & Q1 & Q2 & Q8 & Q9 & Q3 & Q4 & Q6 & Q7 & Q5 & Q10).
    rewrite Ng in R9. rewrite Ng' in Q9. injection R9 as <-. injection Q9 as <-.
    destruct (exact_shapes _ _ El) as (Ei & Eo). rewrite Ei in Q3, Q7. rewrite Eo in Q4, Q6.
    assert (s = get_output_shape l) as -> by (destruct T as ((_ & <-) & _); apply R6).
    destruct (FW i a x0 x0' ltac:(apply nth_error_Some_lt in Nl; lia) Na R1 Q1) as ((s & TX0) & Fr).
    assert (s = get_input_shape l) as -> by (destruct TX0 as ((_ & <-) & _); apply R3).
    destruct (firm_step (map params_of (layers n')) us i (params_of l') a b x0') as (Fl & _); [rewrite nth_error_map, N'; reflexivity|exact Nb|exact Fr|].
    destruct (Pos _ _ Na) as (P1 & P2 & _), (Pos _ _ Nb) as (_ & _ & P3 & P4).
    destruct (layer_near_round K k a b l l1 l2 l' l1' l2' x0 x0' y0 y0' y y' g0 g0' og0 og0' og og'
      (Forall_nth _ _ _ _ Lo Nl) (Forall_nth _ _ _ _ Lo' N') (Forall_nth _ _ _ _ Mo Nl) (Forall_nth _ _ _ _ Mo' N') El LT Fl P1 P2 P3 P4 Hk
      TX0 T (Tw i l l' a b Nl N' Na Nb) R4 Q4 R7 Q7 R5 Q5 R10 Q10) as (T1 & T2).
    exists l2, l2', og, og'. auto 10. }
  (* backwards *)
  assert (BW : forall d a g g', (d <= length (layers n))%nat -> nth_error (u :: us) (length (layers n) - d) = Some a ->
    nth_error gr (length (layers n) - d) = Some g -> nth_error gr' (length (layers n) - d) = Some g' -> exists s, pr (ga a) (gd a) s g g').
  { induction d as [|d IH]; intros a g g' Hd Na Ng Ng'.
    - rewrite Nat.sub_0_r in *. rewrite <- Len in Na, Ng'. rewrite Last in Na. rewrite GL in Ng. rewrite GL' in Ng'. injection Na as <-. injection Ng as <-. injection Ng' as <-.
      exists (net_output_shape n). exact TG.
    - set (i := (length (layers n) - S d)%nat) in *. assert (Si : (length (layers n) - d = S i)%nat) by (unfold i; lia). rewrite Si in IH.
      destruct (nth_error (layers n') i) as [l'|] eqn:N'; [|apply nth_error_None in N'; unfold i in N'; lia].
      destruct (Lv' i l' N') as (l & a0 & b & Nl & El & Na0 & Nb & LT).
      destruct (Rd i l Nl) as (_ & _ & _ & _ & _ & gg & _ & _ & _ & _ & _ & _ & R9 & _).
      destruct (Rd' i l' N') as (_ & _ & _ & _ & _ & gg' & _ & _ & _ & _ & _ & _ & Q9 & _).
      destruct (IH b gg gg' ltac:(lia) Nb R9 Q9) as (s & T).
      destruct (LR i l l' a b gg gg' s Nl N' Na Nb R9 Q9 T) as (l2 & l2' & og & og' & _ & _ & No & No' & To & _).
      rewrite Ng in No. rewrite Ng' in No'. injection No as <-. injection No' as <-. exists (get_input_shape l). exact To. }
  intros i l l' a b Nl Nl' Na Nb.
  assert (Hi : (i < length (layers n))%nat). { apply nth_error_Some_lt in Nl. apply (f_equal (@length _)) in Id. rewrite !map_length in Id. lia. }
  destruct (nth_error (layers n') i) as [l0'|] eqn:N0'; [|apply nth_error_None in N0'; lia].
  destruct (Lv' i l0' N0') as (l0 & _ & _ & N0 & _).
  destruct (Rd i l0 N0) as (_ & _ & _ & _ & _ & gg & _ & _ & _ & _ & _ & _ & R9 & _).
  destruct (Rd' i l0' N0') as (_ & _ & _ & _ & _ & gg' & _ & _ & _ & _ & _ & _ & Q9 & _).
  destruct (BW (length (layers n) - S i)%nat b gg gg') as (s & T); try (replace (length (layers n) - (length (layers n) - S i))%nat with (S i) by lia; assumption); [lia|].
  destruct (LR i l0 l0' a b gg gg' s N0 N0' Na Nb R9 Q9 T) as (l2 & l2' & og & og' & M2 & M2' & _ & _ & _ & Tl).
  rewrite Nl in M2. rewrite Nl' in M2'. injection M2 as <-. injection M2' as <-. exact Tl.
Qed.

Lemma train_near_round {BT : Bits R} K u us batch : forall batch' k (n : network f32) (n' : network R),
  @training_built f32 AF f32_bits bm n -> @training_built R AR BT bm n' -> layers n <> [] ->
  Forall2 exact_params (map params_of (layers n)) (map params_of (layers n')) ->
  net_slopes e low bm K (map params_of (layers n')) u us -> 0 <= xa u -> 0 <= xd u -> 0 <= ga (last us u) -> 0 <= gd (last us u) -> (k + length batch <= K)%nat ->
  Forall2 (sample_near e low bm (net_input_shape n) (net_output_shape n) u (last us u)) batch batch' ->
  Forall (fun s => firm low bm (map params_of (layers n')) u us (fst s)) batch' ->
  net_tracked k (u :: us) n n' ->
  exists n2 n2', @train f32 AF bm n batch = Done (n2, Ok tt) /\ @train R AR bm n' batch' = Done (n2', Ok tt)
    /\ net_tracked (k + length batch) (u :: us) n2 n2'.
Proof.
  induction batch as [|(X & G) batch IH]; intros batch' k n n' TB TB' NE EP NT Pa Pd Pg Ph HK HS HF Tw.
  - inversion HS; subst. exists n, n'. cbn [length]. rewrite Nat.add_0_r. split; [reflexivity|]. split; [reflexivity|exact Tw].
  - inversion HS as [|? (X' & G') ? rest' (x & x' & g & g' & HX & HX' & EX & HG & HG' & EG) HS']; subst. cbn [fst snd] in *.
    cbn [length] in HK |- *. inversion HF as [|? ? HF1 HF2]; subst. cbn [fst] in HF1.
    destruct (@net_near_round BT K k u us n n' X X' G G') as (n1 & n2 & n1' & n2' & E1 & E2 & E1' & E2' & Tw2); try assumption; try lia.
    + apply (@built_ok f32 AF f32_bits bm n (f32_relu_agrees e)). apply training_built_well. exact TB.
    + apply (@built_ok R AR BT bm n' (relu_agrees_R low)). apply training_built_well. exact TB'.
    + exact (@training_built_in f32 AF f32_bits bm n (f32_relu_agrees e) TB).
    + exact (@training_built_in R AR BT bm n' (relu_agrees_R low) TB').
    + eapply paired_holds; eassumption.
    + eapply paired_holds; eassumption.
    + pose proof (infer_kept _ _ _ _ _ E1) as (Id1 & _ & KI1 & KO1 & _). pose proof (net_backward_kept _ _ _ _ _ E2) as (Id2 & _ & KI2 & KO2 & _).
      pose proof (infer_kept _ _ _ _ _ E1') as (Id1' & _). pose proof (net_backward_kept _ _ _ _ _ E2') as (Id2' & _).
      assert (P2 : map params_of (layers n2) = map params_of (layers n)) by (apply ident_split; congruence).
      assert (P2' : map params_of (layers n2') = map params_of (layers n')) by (apply ident_split; congruence).
      destruct (IH rest' (k + 1)%nat n2 n2') as (n3 & n3' & E3 & E3' & Tw3).
      * apply (@SpecNet.train_step f32 AF f32_bits bm n1 (OBackward G) n2 (Ok tt)); [|exact (proj1 (holds_shaped _ _ _ _ HG))|discriminate|exact E2].
        apply (@SpecNet.train_step f32 AF f32_bits bm n (OInfer X) n1 (Ok tt)); [exact TB|exact (proj1 (holds_shaped _ _ _ _ HX))|discriminate|exact E1].
      * apply (@SpecNet.train_step R AR BT bm n1' (OBackward G') n2' (Ok tt)); [|exact (proj1 (holds_shaped _ _ _ _ HG'))|discriminate|exact E2'].
        apply (@SpecNet.train_step R AR BT bm n' (OInfer X') n1' (Ok tt)); [exact TB'|exact (proj1 (holds_shaped _ _ _ _ HX'))|discriminate|exact E1'].
      * intros Q. rewrite Q in P2. symmetry in P2. apply map_eq_nil in P2. contradiction.
      * rewrite P2, P2'. exact EP.
      * rewrite P2'. exact NT.
      * exact Pa.
      * exact Pd.
      * exact Pg.
      * exact Ph.
      * lia.
      * replace (net_input_shape n2) with (net_input_shape n) by congruence. replace (net_output_shape n2) with (net_output_shape n) by congruence. exact HS'.
      * rewrite P2'. exact HF2.
      * exact Tw2.
      * exists n3, n3'. cbn [train]. rewrite E1. cbn [bind]. rewrite E2. cbn [bind]. rewrite E1'. cbn [bind]. rewrite E2'. cbn [bind].
        split; [exact E3|]. split; [exact E3'|]. replace (k + S (length batch))%nat with (k + 1 + length batch)%nat by lia. exact Tw3.
Qed.

Lemma train_near {BT : Bits R} u us batch batch' (n : network f32) (n' : network R) :
  @training_built f32 AF f32_bits bm n -> @training_built R AR BT bm n' -> layers n <> [] ->
  Forall2 exact_params (map params_of (layers n)) (map params_of (layers n')) ->
  net_slopes e low bm (length batch) (map params_of (layers n')) u us -> 0 <= xa u -> 0 <= xd u -> 0 <= ga (last us u) -> 0 <= gd (last us u) ->
  Forall2 (sample_near e low bm (net_input_shape n) (net_output_shape n) u (last us u)) batch batch' ->
  Forall (fun s => firm low bm (map params_of (layers n')) u us (fst s)) batch' ->
  @no_gradients f32 AF bm n -> @no_gradients R AR bm n' ->
  exists n2 n2', @train f32 AF bm n batch = Done (n2, Ok tt) /\ @train R AR bm n' batch' = Done (n2', Ok tt)
    /\ forall i f', nth_error (layers n2') i = Some (LFC f') -> exists f a b m k wg wg' bgr bgr', nth_error (layers n2) i = Some (LFC f)
         /\ nth_error (u :: us) i = Some a /\ nth_error us i = Some b
         /\ @holds f32 AF bm (fc_weights_gradients f) (mkShape m k 1) wg /\ @holds R AR bm (fc_weights_gradients f') (mkShape m k 1) wg'
         /\ within (weight_error (length batch) a b) (mkShape m k 1) wg wg'
         /\ @holds f32 AF bm (fc_bias_gradients f) (mkShape m 1 1) bgr /\ @holds R AR bm (fc_bias_gradients f') (mkShape m 1 1) bgr'
         /\ within (bias_error (length batch) b) (mkShape m 1 1) bgr bgr'.
Proof.
  intros TB TB' NE EP NT Pa Pd Pg Ph HS HF Z Z'.
  pose proof (@built_ok f32 AF f32_bits bm n (f32_relu_agrees e) (training_built_well bm n TB)) as On.
  pose proof (@built_ok R AR BT bm n' (relu_agrees_R low) (training_built_well bm n' TB')) as On'.
  destruct (@train_near_round BT (length batch) u us batch batch' 0 n n' TB TB' NE EP NT Pa Pd Pg Ph ltac:(lia) HS HF) as (n2 & n2' & E & E' & Tw).
  { intros i l l' a b Nl Nl' Na Nb. destruct l as [|f| |], l' as [|f'| |]; try exact I. cbn [layer_tracked].
    destruct (Z i f Nl) as (Zw & Zb). destruct (Z' i f' Nl') as (Zw' & Zb').
    destruct (exact_layers n n' i _ EP Nl') as (l & Nl2 & El). rewrite Nl in Nl2. injection Nl2 as <-. destruct El as (Ew & Eb).
    destruct On as (_ & Lo & _), On' as (_ & Lo' & _). destruct (Forall_nth _ _ _ _ Lo Nl) as (m & k & O). destruct (Forall_nth _ _ _ _ Lo' Nl') as (m' & k' & O').
    pose proof O as (Ow & Ob & _). pose proof O' as (Ow' & Ob' & _). destruct Ew as (Ew & _). rewrite (proj2 Ow), (proj2 Ow') in Ew. injection Ew as -> ->.
    exists m, k. split; [exact O|]. split; [exact O'|]. rewrite (proj2 Ow) in Zw. rewrite (proj2 Ow') in Zw'. rewrite (proj2 Ob) in Zb. rewrite (proj2 Ob') in Zb'.
    unfold zeros in *.
    split; (split; [eapply holds_shaped; eassumption|]; split; [eapply holds_shaped; eassumption|]; intros p q r Hin).
    - rewrite (holds_fun bm _ _ _ _ (shaped_holds bm _ _ (holds_shaped _ _ _ _ Zw)) Zw p q r Hin), (holds_fun bm _ _ _ _ (shaped_holds bm _ _ (holds_shaped _ _ _ _ Zw')) Zw' p q r Hin). apply tracked_zero.
    - rewrite (holds_fun bm _ _ _ _ (shaped_holds bm _ _ (holds_shaped _ _ _ _ Zb)) Zb p q r Hin), (holds_fun bm _ _ _ _ (shaped_holds bm _ _ (holds_shaped _ _ _ _ Zb')) Zb' p q r Hin). apply tracked_zero. }
  exists n2, n2'. split; [exact E|]. split; [exact E'|]. intros i f' Nf'.
  assert (Par : forall {F} {A : Arith F} b (k k2 : network F), train bm k b = Done (k2, Ok tt) -> map params_of (layers k2) = map params_of (layers k)).
  { clear. intros F A. induction b as [|(X & G) b IH]; intros k k2 E; cbn [train] in E; [injection E as <-; reflexivity|].
    apply bind_done in E. destruct E as ((k1 & [[]|]) & E1 & E); [|discriminate]. apply bind_done in E. destruct E as ((k3 & [[]|]) & E2 & E); [|discriminate].
    rewrite (IH _ _ E). apply ident_split. pose proof (proj1 (infer_kept _ _ _ _ _ E1)). pose proof (proj1 (net_backward_kept _ _ _ _ _ E2)). congruence. }
  pose proof (Par _ _ _ _ _ E) as P2. pose proof (Par _ _ _ _ _ E') as P2'.
  destruct (exact_layers n2 n2' i (LFC f')) as (l & Nl & El); [rewrite P2, P2'; exact EP|exact Nf'|].
  destruct l as [|f| |]; try contradiction El.
  destruct (spans_nth _ _ _ _ NT) as (_ & Lv). destruct (Lv i (params_of (LFC f'))) as (a & b & Na & Nb & _).
  { rewrite <- P2', nth_error_map, Nf'. reflexivity. }
  destruct (Tw i _ _ a b Nl Nf' Na Nb) as (m & k & _ & _ & (S1 & S2 & T1) & (S3 & S4 & T2)).
  exists f, a, b, m, k, (@val f32 AF (fc_weights_gradients f)), (@val R AR (fc_weights_gradients f')), (@val f32 AF (fc_bias_gradients f)), (@val R AR (fc_bias_gradients f')).
  split; [exact Nl|]. split; [exact Na|]. split; [exact Nb|]. split; [apply shaped_holds; exact S1|]. split; [apply shaped_holds; exact S2|].
  split; [intros p q r Hin; exact (tracked_error _ _ _ _ _ (T1 p q r Hin))|].
  split; [apply shaped_holds; exact S3|]. split; [apply shaped_holds; exact S4|].
  intros p q r Hin; exact (tracked_error _ _ _ _ _ (T2 p q r Hin)).
Qed.

Lemma train_near_gradient {BT : Bits R} u us batch batch' (n : network f32) (n' : network R) i f M k w b :
  @training_built f32 AF f32_bits bm n -> @training_built R AR BT bm n' -> layers n <> [] ->
  Forall2 exact_params (map params_of (layers n)) (map params_of (layers n')) ->
  net_slopes e low bm (length batch) (map params_of (layers n')) u us -> 0 <= xa u -> 0 <= xd u -> 0 <= ga (last us u) -> 0 <= gd (last us u) ->
  Forall2 (sample_near e low bm (net_input_shape n) (net_output_shape n) u (last us u)) batch batch' ->
  Forall (fun s => firm low bm (map params_of (layers n')) u us (fst s)) batch' ->
  @no_gradients f32 AF bm n -> @no_gradients R AR bm n' ->
  nth_error (layers n') i = Some (LFC f) -> @holds R AR bm (fc_weights f) (mkShape M k 1) w -> @holds R AR bm (fc_bias f) (mkShape M 1 1) b ->
  exists n2 f2 a c wg bgr dw db loss, @train f32 AF bm n batch = Done (n2, Ok tt) /\ nth_error (layers n2) i = Some (LFC f2)
    /\ nth_error (u :: us) i = Some a /\ nth_error us i = Some c
    /\ @holds f32 AF bm (fc_weights_gradients f2) (mkShape M k 1) wg /\ within (weight_error (length batch) a c) (mkShape M k 1) wg dw
    /\ @holds f32 AF bm (fc_bias_gradients f2) (mkShape M 1 1) bgr /\ within (bias_error (length batch) c) (mkShape M 1 1) bgr db
    /\ (forall nt W B w' b', @well_built R AR BT bm nt -> map params_of (layers nt) = list_set (map params_of (layers n')) i (PFC W B) ->
          @holds R AR bm W (mkShape M k 1) w' -> @holds R AR bm B (mkShape M 1 1) b' -> batch_loss low bm nt batch' (loss w' b'))
    /\ gradient (mkShape M k 1) (fun w' => loss w' b) w dw
    /\ gradient (mkShape M 1 1) (fun b' => loss w b') b db.
Proof.
  intros TB TB' NE EP NT Pa Pd Pg Ph HS HF Z Z' Nf Hw Hb.
  destruct (@train_near BT u us batch batch' n n' TB TB' NE EP NT Pa Pd Pg Ph HS HF Z Z') as (n2 & n2' & E & E' & Ex).
  destruct (Z' i f Nf) as (Zw & Zb). pose proof (proj2 (holds_shaped _ _ _ _ Hw)) as Sw. pose proof (proj2 (holds_shaped _ _ _ _ Hb)) as Sb. rewrite Sw in Zw. rewrite Sb in Zb.
  assert (Sm : Forall (sample_ok low bm n') batch').
  { pose proof (@built_ok f32 AF f32_bits bm n (f32_relu_agrees e) (training_built_well bm n TB)) as ((_ & I2 & I3 & _) & _).
    pose proof (@built_ok R AR BT bm n' (relu_agrees_R low) (training_built_well bm n' TB')) as ((_ & I2' & I3' & _) & _).
    assert (EBd : boundaries (layers n') = boundaries (layers n)) by (apply exact_boundaries; exact EP).
    clear - NT Pa Pd HS HF I2 I3 I2' I3' EBd. set (K := length batch) in NT. clearbody K. induction HS as [|s s' b b' (x & x' & g & g' & _ & HX' & _ & _ & HG' & _) HS IH]; constructor; inversion HF; subst.
    - split; [|split].
      + replace (net_input_shape n') with (net_input_shape n) by congruence. exact (holds_shaped _ _ _ _ HX').
      + replace (net_output_shape n') with (net_output_shape n) by congruence. exact (holds_shaped _ _ _ _ HG').
      + eapply firm_smooth; eassumption.
    - apply IH; assumption. }
  assert (Bk : Forall backs_exactly (layers n')).
  { destruct (spans_nth _ _ _ _ NT) as (_ & Lv). apply Forall_forall. intros l' Hl. apply In_nth_error in Hl. destruct Hl as (j & Nj).
    destruct (Lv j (params_of l')) as (a0 & b0 & _ & _ & LT); [rewrite nth_error_map, Nj; reflexivity|]. destruct l'; cbn [params_of] in LT; inversion LT; subst; cbn; auto; try (match goal with H : mkShape _ 1 1 = sm_shape _ |- _ => rewrite <- H; cbn; auto end); try (match goal with H : sm_shape _ = mkShape _ 1 1 |- _ => rewrite H; cbn; auto end). }
  destruct (train_batch low bm batch' n' i f M k w b _ _ TB' Bk Sm Nf Hw Hb Zw Zb) as (n3 & f3 & dw & db & loss & E3 & Nf3 & Hwg & Hbg & L & Gw & Gb).
  rewrite E' in E3. injection E3 as <-.
  destruct (Ex i f3 Nf3) as (f2 & a & c & m2 & k2 & wg & wg' & bgr & bgr' & Nf2 & Na & Nc & H1 & H2 & H3 & H4 & H5 & H6).
  pose proof (holds_shape _ _ _ _ _ _ H2 Hwg) as Q. injection Q as -> ->.
  pose proof (holds_fun _ _ _ _ _ H2 Hwg) as Q1. pose proof (holds_fun _ _ _ _ _ H5 Hbg) as Q2.
  exists n2, f2, a, c, wg, bgr, dw, db, loss. split; [exact E|]. split; [exact Nf2|]. split; [exact Na|]. split; [exact Nc|]. split; [exact H1|].
  split. { intros p q r Hin. destruct (H3 p q r Hin) as (F1 & R1). split; [exact F1|]. rewrite (Q1 p q r Hin) in R1. cbn [fadd fzero R_arith] in R1. rewrite Rplus_0_l in R1. exact R1. }
  split; [exact H4|].
  split. { intros p q r Hin. destruct (H6 p q r Hin) as (F1 & R1). split; [exact F1|]. rewrite (Q2 p q r Hin) in R1. cbn [fadd fzero R_arith] in R1. rewrite Rplus_0_l in R1. exact R1. }
  auto.
Qed.
End Two.
