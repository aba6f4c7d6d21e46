(** * Fixed-point training of whole networks *)
From Coq Require Import Reals Lra ZifyBool ZifyNat ZifyN.
From Verif Require Import Base Arith Helper Tensor Network Bincode Serial Spec SpecLayer SpecNet SpecReal SpecTrain Loops TensorFacts OpsFacts ProofsTensor Layout LayerFacts BackFacts NetFacts NetRun NetBack RealArith RealSums Float32.
From Verif Require Import SpecError FloatError SpecNetError SpecModes SpecBatch SpecGrid SpecGridBack ProofsFloat ProofsLayer ProofsGrad ProofsNetError ProofsGrid Lockstep ProofsGridBack SpecChain ProofsBatch.
Local Open Scope R_scope.

Section Two.
Context (e : env) (low : R) (bm : build).
Notation AF := (f32_arith e).
Notation AR := (R_arith low).
Notation tw := (twins e low).

Definition layer_twins (k : R) (u v : level) (l : layer f32) (l' : layer R) : Prop :=
  match l, l' with
  | LFC f, LFC f' => exists m n, fc_ok m n f /\ fc_ok m n f' /\ fc_twins e low k u v m n f f'
  | _, _ => True
  end.

Lemma training_grid K p u v : layer_training low bm K p u v -> layer_grid low bm p (fg u) (fa u) (fg v) (fa v).
Proof. destruct 1; assumption. Qed.

Lemma training_pos K p u v : layer_training low bm K p u v -> 0 <= ba v -> 0 <= ba u.
Proof. intros H P. destruct H as [? ? ? ? ? ? ? u v A _ _ _ _ Hs _ E|? ? ? ? ? u v _ _ _ _ _ E]; rewrite E; apply Rmult_le_pos; auto using pos_INR. Qed.

Lemma exact_shapes (l : layer f32) (l' : layer R) : exact_params (params_of l) (params_of l') ->
  get_input_shape l' = get_input_shape l /\ get_output_shape l' = get_output_shape l.
Proof.
  destruct l as [l|l|l|l], l' as [l'|l'|l'|l']; cbn [params_of exact_params get_input_shape get_output_shape]; try contradiction.
  - intros (_ & _ & _ & -> & ->). auto.
  - unfold fc_input_shape, fc_output_shape, get_shape. intros ((-> & _) & (-> & _)). auto.
  - intros (-> & _ & -> & _). auto.
  - intros ->. auto.
Qed.

(** The forward pass keeps twins. *)
Lemma forward_twins g a g1 a1 (l0 l1 : layer f32) (l0' l1' : layer R) x x' y0 y0' y y' :
  layer_ok l0 -> layer_ok l0' -> exact_params (params_of l0) (params_of l0') -> layer_grid low bm (params_of l0') g a g1 a1 -> 0 <= a ->
  tw g a (get_input_shape l0) x x' -> shaped y0 (get_output_shape l0) -> shaped y0' (get_output_shape l0) ->
  @forward bm f32 AF l0 x y0 = Done (l1, y, Ok tt) -> @forward bm R AR l0' x' y0' = Done (l1', y', Ok tt) ->
  tw g1 a1 (get_output_shape l0) y y'.
Proof.
  intros O O' EP LG Pa (SX & SX' & XX) SY SY' EF EF'. destruct (exact_shapes _ _ EP) as (Ei & Eo).
  destruct (@forward_ok f32 AF bm l0 x y0 (f32_relu_agrees e) O SX SY) as (a2 & b2 & Q & C & H). rewrite EF in Q. injection Q as <- <-.
  destruct (@forward_ok R AR bm l0' x' y0' (relu_agrees_R low) O') as (a2 & b2 & Q & C' & _); [rewrite Ei; exact SX'|rewrite Eo; exact SY'|]. rewrite EF' in Q. injection Q as <- <-.
  destruct (layer_exact e low bm _ _ x x' y y' _ _ _ g a g1 a1 EP C C' (shaped_holds bm _ _ SX) (shaped_holds bm _ _ SX') Pa XX LG) as (s1 & v & v' & Hy & Hy' & EY).
  destruct H as (_ & Sy & _).
  pose proof (holds_shape _ _ _ _ _ _ Hy (shaped_holds bm _ _ Sy)) as ->. eapply twins_holds; eassumption.
Qed.

Lemma layer_round K k u v (l0 l1 l2 : layer f32) (l0' l1' l2' : layer R) x x' y0 y0' y y' g g' o0 o0' og og' :
  layer_ok l0 -> layer_ok l0' -> get_run_mode l0 = Training -> get_run_mode l0' = Training ->
  exact_params (params_of l0) (params_of l0') -> layer_training low bm K (params_of l0') u v -> 0 <= fa u -> 0 <= ba v -> 0 <= k -> k + 1 <= K ->
  tw (fg u) (fa u) (get_input_shape l0) x x' -> tw (bg v) (ba v) (get_output_shape l0) g g' -> layer_twins k u v l0 l0' ->
  shaped y0 (get_output_shape l0) -> shaped y0' (get_output_shape l0) -> shaped o0 (get_input_shape l0) -> shaped o0' (get_input_shape l0) ->
  @forward bm f32 AF l0 x y0 = Done (l1, y, Ok tt) -> @forward bm R AR l0' x' y0' = Done (l1', y', Ok tt) ->
  @backward bm f32 AF l1 x y g o0 = Done (l2, og, Ok tt) -> @backward bm R AR l1' x' y' g' o0' = Done (l2', og', Ok tt) ->
  tw (bg u) (ba u) (get_input_shape l0) og og' /\ layer_twins (k + 1) u v l2 l2'.
Proof.
  intros O O' Tr Tr' EP LT Pa Pc Pk Hk TX TG TL SY SY' So So' EF EF' EB EB'.
  destruct l0 as [l|l|l|l], l0' as [l'|l'|l'|l']; try contradiction EP; cbn [params_of] in *; try (inversion LT; fail).
  - destruct TL as (m & n & Om & Om' & TL). cbn [get_run_mode get_input_shape get_output_shape] in *. cbn [forward] in EF, EF'.
    apply bind_done in EF. destruct EF as (((f1 & yy) & r) & EF & Q). injection Q as <- -> ->.
    apply bind_done in EF'. destruct EF' as (((f1' & yy') & r) & EF' & Q). injection Q as <- -> ->.
    cbn [backward] in EB, EB'.
    apply bind_done in EB. destruct EB as (((f2 & oo) & r) & EB & Q). injection Q as <- -> ->.
    apply bind_done in EB'. destruct EB' as (((f2' & oo') & r) & EB' & Q). injection Q as <- -> ->.
    pose proof Om as (Ow & Ob & _). unfold fc_input_shape, fc_output_shape, get_shape in *. rewrite (proj2 Ow) in *. cbn [dj] in *. 
    rewrite (proj2 Ob) in *.
    destruct (fc_round e low bm K k u v m n l l' x x' y0 y0' g g' o0 o0' f1 f1' y y' f2 f2' og og') as (_ & T2 & T3); try assumption; try apply EP.
    split; [exact T2|]. exists m, n. split; [|split; [|exact T3]].
    + destruct (@fc_forward_ok f32 AF bm l m n x y0 (f32_relu_agrees e) Om (proj1 TX) SY) as (a & b & Q & _ & O1 & _). rewrite EF in Q. injection Q as <- _. eapply (@fc_backward_ok f32 AF); eassumption.
    + destruct (@fc_forward_ok R AR bm l' m n x' y0' (relu_agrees_R low) Om' (proj1 (proj2 TX)) SY') as (a & b & Q & _ & O1 & _). rewrite EF' in Q. injection Q as <- _. eapply (@fc_backward_ok R AR); eassumption.
  - cbn [get_run_mode get_input_shape get_output_shape] in *. cbn [forward] in EF, EF'.
    apply bind_done in EF. destruct EF as (((f1 & yy) & r) & EF & Q). injection Q as <- -> ->.
    apply bind_done in EF'. destruct EF' as (((f1' & yy') & r) & EF' & Q). injection Q as <- -> ->.
    cbn [backward] in EB, EB'.
    apply bind_done in EB. destruct EB as (((f2 & oo) & r) & EB & Q). injection Q as <- -> ->.
    apply bind_done in EB'. destruct EB' as (((f2' & oo') & r) & EB' & Q). injection Q as <- -> ->.
    split; [|exact I]. eapply (mp_round e low bm K u v l l'); eassumption.
Qed.

(** ** Levels along a network *)
Lemma Forall2_len {A B} (P : A -> B -> Prop) l l' : Forall2 P l l' -> length l = length l'.
Proof. induction 1; cbn; congruence. Qed.

Lemma last_cons {A} (u v : A) us : last (v :: us) u = last us v.
Proof. revert u v. induction us as [|a us IH]; intros u v; [reflexivity|]. change (last (v :: a :: us) u) with (last (a :: us) u). rewrite !IH. reflexivity. Qed.

Lemma levels_nth K ps : forall u us, net_training low bm K ps u us -> length us = length ps /\
  forall i p, nth_error ps i = Some p -> exists a b, nth_error (u :: us) i = Some a /\ nth_error (u :: us) (S i) = Some b /\ layer_training low bm K p a b.
Proof.
  induction ps as [|p ps IH]; intros u [|v us] H; try contradiction H.
  - split; [reflexivity|]. intros [|i] p; discriminate.
  - destruct H as (H1 & H2). destruct (IH v us H2) as (L & I). split; [cbn; lia|]. intros [|i] q N; [injection N as <-; exists u, v; auto|apply I; exact N].
Qed.

Lemma levels_last K ps : forall u us, net_training low bm K ps u us -> nth_error (u :: us) (length ps) = Some (last us u).
Proof.
  induction ps as [|p ps IH]; intros u [|v us] H; try contradiction H; [reflexivity|]. destruct H as (_ & H). cbn [length nth_error].
  rewrite last_cons. exact (IH v us H).
Qed.

Lemma levels_pos K ps : forall u us, net_training low bm K ps u us -> 0 <= fa u -> 0 <= ba (last us u) ->
  forall i a, nth_error (u :: us) i = Some a -> 0 <= fa a /\ 0 <= ba a.
Proof.
  induction ps as [|p ps IH]; intros u [|v us] H Pa Pc; try contradiction H.
  - intros [|[|i]] a N; try discriminate. injection N as <-. auto.
  - destruct H as (H1 & H2). assert (Pv : 0 <= fa v) by (eapply layer_grid_pos; [eapply training_grid; exact H1|exact Pa]).
    rewrite last_cons in Pc. pose proof (IH v us H2 Pv Pc) as I. intros [|i] a N; [|exact (I i a N)]. injection N as <-.
    split; [exact Pa|]. eapply training_pos; [exact H1|]. apply (I 0%nat v eq_refl).
Qed.

Definition net_twins (k : R) (lv : list level) (n : network f32) (n' : network R) : Prop :=
  forall i l l' a b, nth_error (layers n) i = Some l -> nth_error (layers n') i = Some l' -> nth_error lv i = Some a -> nth_error lv (S i) = Some b ->
    layer_twins k a b l l'.

Lemma exact_layers (n : network f32) (n' : network R) i l' : Forall2 exact_params (map params_of (layers n)) (map params_of (layers n')) ->
  nth_error (layers n') i = Some l' -> exists l, nth_error (layers n) i = Some l /\ exact_params (params_of l) (params_of l').
Proof.
  generalize (layers n) (layers n'). intros ls ls' H. remember (map params_of ls) as ps eqn:E. remember (map params_of ls') as ps' eqn:E'. revert i ls ls' E E'.
  induction H as [|p p' ps ps' Hp H IH]; intros i ls ls' E E' N.
  - destruct ls'; [destruct i; discriminate|discriminate].
  - destruct ls as [|l ls], ls' as [|l1 ls']; try discriminate. cbn [map] in E, E'. injection E as Ep E. injection E' as Ep' E'.
    destruct i as [|i]; [injection N as <-; exists l; split; [reflexivity|congruence]|]. exact (IH i ls ls' E E' N).
Qed.

Lemma net_round {BT : Bits R} K k u us (n : network f32) (n' : network R) X X' G G' :
  net_ok n -> net_ok n' -> in_training n -> in_training n' -> layers n <> [] ->
  Forall2 exact_params (map params_of (layers n)) (map params_of (layers n')) ->
  net_training low bm K (map params_of (layers n')) u us -> 0 <= fa u -> 0 <= ba (last us u) -> 0 <= k -> k + 1 <= K ->
  tw (fg u) (fa u) (net_input_shape n) X X' -> tw (bg (last us u)) (ba (last us u)) (net_output_shape n) G G' ->
  net_twins k (u :: us) n n' ->
  exists n1 n2 n1' n2',
    @infer bm f32 AF n X = Done (n1, Ok tt) /\ @net_backward bm f32 AF n1 G = Done (n2, Ok tt)
    /\ @infer bm R AR n' X' = Done (n1', Ok tt) /\ @net_backward bm R AR n1' G' = Done (n2', Ok tt)
    /\ net_twins (k + 1) (u :: us) n2 n2'.
Proof.
  intros On On' Tn Tn' NE EP NT Pa Pc Pk Hk TX TG Tw.
  destruct (levels_nth _ _ _ _ NT) as (Lu & Lv). rewrite map_length in Lu. pose proof (levels_pos _ _ _ _ NT Pa Pc) as Pos. pose proof (levels_last _ _ _ _ NT) as Last.
  rewrite map_length in Last. assert (Len : length (layers n') = length (layers n)) by (pose proof (Forall2_len _ _ _ EP) as Q; rewrite !map_length in Q; lia).
  assert (Lv' : forall i l', nth_error (layers n') i = Some l' -> exists l a b, nth_error (layers n) i = Some l /\ exact_params (params_of l) (params_of l')
    /\ nth_error (u :: us) i = Some a /\ nth_error (u :: us) (S i) = Some b /\ layer_training low bm K (params_of l') a b).
  { intros i l' N. destruct (exact_layers n n' i l' EP N) as (l & Nl & El). destruct (Lv i (params_of l')) as (a & b & Na & Nb & LT); [rewrite nth_error_map, N; reflexivity|].
    exists l, a, b. auto. }
  assert (NE' : layers n' <> []) by (destruct (layers n'), (layers n); try discriminate; congruence).
  assert (NC' : Forall stays_inside (layers n') /\ Forall backs (layers n')).
  { split; apply Forall_forall; intros l' Hl; apply In_nth_error in Hl; destruct Hl as (i & Ni); destruct (Lv' i l' Ni) as (l & a & b & _ & _ & _ & _ & LT);
      destruct l'; cbn [params_of] in LT; inversion LT; subst; cbn; auto. }
  assert (NC : Forall stays_inside (layers n) /\ Forall backs (layers n)).
  { split; apply Forall_forall; intros l Hl; apply In_nth_error in Hl; destruct Hl as (i & Ni); destruct (nth_error (layers n') i) as [l'|] eqn:N';
      try (apply nth_error_None in N'; apply nth_error_Some_lt in Ni; lia); destruct (Lv' i l' N') as (l1 & a & b & Nl & El & _ & _ & LT); rewrite Ni in Nl; injection Nl as <-;
      destruct l, l'; cbn [params_of exact_params] in LT, El; try contradiction El; inversion LT; subst; cbn; auto. destruct El as (E1 & _). rewrite <- E1. assumption. }
  destruct NC as (NC & Bk), NC' as (NC' & Bk').
  assert (EB : boundaries (layers n') = boundaries (layers n)).
  { clear - EP. revert EP. generalize (layers n) (layers n'). intros ls. induction ls as [|l ls IH]; intros [|l' ls'] EP; inversion EP as [|? ? ? ? E1 E2]; subst; [reflexivity|].
    destruct (exact_shapes _ _ E1) as (Ei & Eo). unfold boundaries. cbn [map]. rewrite Ei, Eo. f_equal. f_equal.
    clear - E2. revert ls' E2. induction ls as [|l ls IH]; intros [|l' ls'] E2; inversion E2 as [|? ? ? ? E1 E3]; subst; [reflexivity|]. cbn [map].
    rewrite (proj2 (exact_shapes _ _ E1)). f_equal. apply IH. exact E3. }
  assert (EI : net_input_shape n' = net_input_shape n) by (pose proof On as ((_ & H2 & _) & _); pose proof On' as ((_ & H2' & _) & _); rewrite H2, H2', EB; reflexivity).
  assert (EO : net_output_shape n' = net_output_shape n) by (pose proof On as ((_ & _ & H3 & _) & _); pose proof On' as ((_ & _ & H3' & _) & _); rewrite H3, H3', EB; reflexivity).
  destruct (@round_trace f32 AF bm n X G (f32_relu_agrees e) On Tn NE NC Bk (proj1 TX) (proj1 TG)) as (n1 & n2 & st & gr & I1 & B1 & S0 & GL & Id & Rd).
  destruct (@round_trace R AR bm n' X' G' (relu_agrees_R low) On' Tn' NE' NC' Bk') as (n1' & n2' & st' & gr' & I1' & B1' & S0' & GL' & Id' & Rd');
    [rewrite EI; apply TX|rewrite EO; apply TG|].
  exists n1, n2, n1', n2'. split; [exact I1|]. split; [exact B1|]. split; [exact I1'|]. split; [exact B1'|].
  pose proof On as (_ & Lo & _). pose proof On' as (_ & Lo' & _). pose proof Tn as (_ & Mo & _). pose proof Tn' as (_ & Mo' & _).
  (* forwards *)
  assert (FW : forall i a x x', (i <= length (layers n))%nat -> nth_error (u :: us) i = Some a -> nth_error st i = Some x -> nth_error st' i = Some x' ->
    exists s, tw (fg a) (fa a) s x x').
  { induction i as [|i IH]; intros a x x' Hi Na Nx Nx'.
    - injection Na as <-. rewrite S0 in Nx. rewrite S0' in Nx'. injection Nx as <-. injection Nx' as <-. exists (net_input_shape n). exact TX.
    - destruct (nth_error (layers n') i) as [l'|] eqn:N'; [|apply nth_error_None in N'; lia].
      destruct (Lv' i l' N') as (l & b & c & Nl & El & Nb & Nc & LT). rewrite Na in Nc. injection Nc as <-.
      destruct (Rd i l Nl) as (l1 & l2 & x0 & y0 & y & g & og0 & og & _ & R1 & R2 & _ & _ & R3 & R4 & _ & _ & R5 & _).
      destruct (Rd' i l' N') as (l1' & l2' & x0' & y0' & y' & g' & og0' & og' & _ & Q1 & Q2 & _ & _ & Q3 & Q4 & _ & _ & Q5 & _).
      destruct (IH b x0 x0' ltac:(lia) Nb R1 Q1) as (s & T). rewrite R2 in Nx. rewrite Q2 in Nx'. injection Nx as <-. injection Nx' as <-.
      assert (s = get_input_shape l) as -> by (destruct T as ((_ & <-) & _); apply R3).
      exists (get_output_shape l). rewrite (proj2 (exact_shapes _ _ El)) in Q4.
      exact (forward_twins _ _ _ _ l l1 l' l1' x0 x0' y0 y0' y y' (Forall_nth _ _ _ _ Lo Nl) (Forall_nth _ _ _ _ Lo' N') El (training_grid _ _ _ _ LT) (proj1 (Pos _ _ Nb)) T R4 Q4 R5 Q5). }
  (* one layer, given its incoming gradient *)
  assert (LR : forall i l l' a b g g' s, nth_error (layers n) i = Some l -> nth_error (layers n') i = Some l' -> nth_error (u :: us) i = Some a -> nth_error (u :: us) (S i) = Some b ->
    nth_error gr (S i) = Some g -> nth_error gr' (S i) = Some g' -> tw (bg b) (ba b) s g g' ->
    exists l2 l2' og og', nth_error (layers n2) i = Some l2 /\ nth_error (layers n2') i = Some l2' /\ nth_error gr i = Some og /\ nth_error gr' i = Some og'
      /\ tw (bg a) (ba a) (get_input_shape l) og og' /\ layer_twins (k + 1) a b l2 l2').
  { intros i l l' a b g0 g0' s Nl N' Na Nb Ng Ng' T.
    destruct (Lv' i l' N') as (l3 & a3 & b3 & Nl3 & El & Na3 & Nb3 & LT). rewrite Nl in Nl3. rewrite Na in Na3. rewrite Nb in Nb3.
    injection Nl3 as <-. injection Na3 as <-. injection Nb3 as <-.
    destruct (Rd i l Nl) as (l1 & l2 & x0 & y0 & y & g & og0 & og & R0 & R1 & R2 & R8 & R9 & R3 & R4 & R6 & R7 & R5 & R10).
    destruct (Rd' i l' N') as (l1' & l2' & x0' & y0' & y' & g' & og0' & og' & Q0 & Q1 & Q2 & Q8 & Q9 & Q3 & Q4 & Q6 & Q7 & Q5 & Q10).
    rewrite Ng in R9. rewrite Ng' in Q9. injection R9 as <-. injection Q9 as <-.
    destruct (exact_shapes _ _ El) as (Ei & Eo). rewrite Ei in Q3, Q7. rewrite Eo in Q4, Q6.
    assert (s = get_output_shape l) as -> by (destruct T as ((_ & <-) & _); apply R6).
    destruct (FW i a x0 x0' ltac:(apply nth_error_Some_lt in Nl; lia) Na R1 Q1) as (s & TX0).
    assert (s = get_input_shape l) as -> by (destruct TX0 as ((_ & <-) & _); apply R3).
    destruct (layer_round K k a b l l1 l2 l' l1' l2' x0 x0' y0 y0' y y' g0 g0' og0 og0' og og'
      (Forall_nth _ _ _ _ Lo Nl) (Forall_nth _ _ _ _ Lo' N') (Forall_nth _ _ _ _ Mo Nl) (Forall_nth _ _ _ _ Mo' N') El LT (proj1 (Pos _ _ Na)) (proj2 (Pos _ _ Nb)) Pk Hk
      TX0 T (Tw i l l' a b Nl N' Na Nb) R4 Q4 R7 Q7 R5 Q5 R10 Q10) as (T1 & T2).
    exists l2, l2', og, og'. auto 10. }
  (* backwards *)
  assert (BW : forall d a g g', (d <= length (layers n))%nat -> nth_error (u :: us) (length (layers n) - d) = Some a ->
    nth_error gr (length (layers n) - d) = Some g -> nth_error gr' (length (layers n) - d) = Some g' -> exists s, tw (bg a) (ba a) s g g').
  { induction d as [|d IH]; intros a g g' Hd Na Ng Ng'.
    - rewrite Nat.sub_0_r in *. rewrite <- Len in Na, Ng'. rewrite Last in Na. rewrite GL in Ng. rewrite GL' in Ng'. injection Na as <-. injection Ng as <-. injection Ng' as <-.
      exists (net_output_shape n). exact TG.
    - set (i := (length (layers n) - S d)%nat) in *. assert (Si : (length (layers n) - d = S i)%nat) by (unfold i; lia). rewrite Si in IH.
      destruct (nth_error (layers n') i) as [l'|] eqn:N'; [|apply nth_error_None in N'; unfold i in N'; lia].
      destruct (Lv' i l' N') as (l & a0 & b & Nl & El & Na0 & Nb & LT).
      destruct (Rd i l Nl) as (_ & _ & _ & _ & _ & gg & _ & _ & _ & _ & _ & _ & R9 & _).
      destruct (Rd' i l' N') as (_ & _ & _ & _ & _ & gg' & _ & _ & _ & _ & _ & _ & Q9 & _).
      destruct (IH b gg gg' ltac:(lia) Nb R9 Q9) as (s & T).
      destruct (LR i l l' a b gg gg' s Nl N' Na Nb R9 Q9 T) as (l2 & l2' & og & og' & _ & _ & No & No' & To & _).
      rewrite Ng in No. rewrite Ng' in No'. injection No as <-. injection No' as <-. exists (get_input_shape l). exact To. }
  intros i l l' a b Nl Nl' Na Nb.
  assert (Hi : (i < length (layers n))%nat). { apply nth_error_Some_lt in Nl. apply (f_equal (@length _)) in Id. rewrite !map_length in Id. lia. }
  destruct (nth_error (layers n') i) as [l0'|] eqn:N0'; [|apply nth_error_None in N0'; lia].
  destruct (Lv' i l0' N0') as (l0 & _ & _ & N0 & _).
  destruct (Rd i l0 N0) as (_ & _ & _ & _ & _ & gg & _ & _ & _ & _ & _ & _ & R9 & _).
  destruct (Rd' i l0' N0') as (_ & _ & _ & _ & _ & gg' & _ & _ & _ & _ & _ & _ & Q9 & _).
  destruct (BW (length (layers n) - S i)%nat b gg gg') as (s & T); try (replace (length (layers n) - (length (layers n) - S i))%nat with (S i) by lia; assumption); [lia|].
  destruct (LR i l0 l0' a b gg gg' s N0 N0' Na Nb R9 Q9 T) as (l2 & l2' & og & og' & M2 & M2' & _ & _ & _ & Tl).
  rewrite Nl in M2. rewrite Nl' in M2'. injection M2 as <-. injection M2' as <-. exact Tl.
Qed.

Lemma train_round {BT : Bits R} K u us batch : forall batch' k (n : network f32) (n' : network R),
  @training_built f32 AF f32_bits bm n -> @training_built R AR BT bm n' -> layers n <> [] ->
  Forall2 exact_params (map params_of (layers n)) (map params_of (layers n')) ->
  net_training low bm K (map params_of (layers n')) u us -> 0 <= fa u -> 0 <= ba (last us u) -> 0 <= k -> k + INR (length batch) <= K ->
  Forall2 (sample_grid e low bm (net_input_shape n) (net_output_shape n) u (last us u)) batch batch' ->
  net_twins k (u :: us) n n' ->
  exists n2 n2', @train f32 AF bm n batch = Done (n2, Ok tt) /\ @train R AR bm n' batch' = Done (n2', Ok tt)
    /\ net_twins (k + INR (length batch)) (u :: us) n2 n2'.
Proof.
  induction batch as [|(X & G) batch IH]; intros batch' k n n' TB TB' NE EP NT Pa Pc Pk HK HS Tw.
  - inversion HS; subst. exists n, n'. cbn [length INR]. rewrite Rplus_0_r. split; [reflexivity|]. split; [reflexivity|exact Tw].
  - inversion HS as [|? (X' & G') ? rest' (x & x' & g & g' & HX & HX' & EX & HG & HG' & EG) HS']; subst. cbn [fst snd] in *.
    cbn [length] in HK |- *. rewrite S_INR in HK |- *. pose proof (pos_INR (length batch)) as PI.
    destruct (@net_round BT K k u us n n' X X' G G') as (n1 & n2 & n1' & n2' & E1 & E2 & E1' & E2' & Tw2); try assumption; try lra.
    + apply (@built_ok f32 AF f32_bits bm n (f32_relu_agrees e)). apply training_built_well. exact TB.
    + apply (@built_ok R AR BT bm n' (relu_agrees_R low)). apply training_built_well. exact TB'.
    + exact (@training_built_in f32 AF f32_bits bm n (f32_relu_agrees e) TB).
    + exact (@training_built_in R AR BT bm n' (relu_agrees_R low) TB').
    + eapply twins_holds; eassumption.
    + eapply twins_holds; eassumption.
    + pose proof (infer_kept _ _ _ _ _ E1) as (Id1 & _ & KI1 & KO1 & _). pose proof (net_backward_kept _ _ _ _ _ E2) as (Id2 & _ & KI2 & KO2 & _).
      pose proof (infer_kept _ _ _ _ _ E1') as (Id1' & _). pose proof (net_backward_kept _ _ _ _ _ E2') as (Id2' & _).
      assert (P2 : map params_of (layers n2) = map params_of (layers n)) by (apply ident_split; congruence).
      assert (P2' : map params_of (layers n2') = map params_of (layers n')) by (apply ident_split; congruence).
      destruct (IH rest' (k + 1) n2 n2') as (n3 & n3' & E3 & E3' & Tw3).
      * apply (@SpecNet.train_step f32 AF f32_bits bm n1 (OBackward G) n2 (Ok tt)); [|exact (proj1 (holds_shaped _ _ _ _ HG))|discriminate|exact E2].
        apply (@SpecNet.train_step f32 AF f32_bits bm n (OInfer X) n1 (Ok tt)); [exact TB|exact (proj1 (holds_shaped _ _ _ _ HX))|discriminate|exact E1].
      * apply (@SpecNet.train_step R AR BT bm n1' (OBackward G') n2' (Ok tt)); [|exact (proj1 (holds_shaped _ _ _ _ HG'))|discriminate|exact E2'].
        apply (@SpecNet.train_step R AR BT bm n' (OInfer X') n1' (Ok tt)); [exact TB'|exact (proj1 (holds_shaped _ _ _ _ HX'))|discriminate|exact E1'].
      * intros Q. rewrite Q in P2. symmetry in P2. apply map_eq_nil in P2. contradiction.
      * rewrite P2, P2'. exact EP.
      * rewrite P2'. exact NT.
      * exact Pa.
      * exact Pc.
      * lra.
      * lra.
      * replace (net_input_shape n2) with (net_input_shape n) by congruence. replace (net_output_shape n2) with (net_output_shape n) by congruence. exact HS'.
      * exact Tw2.
      * exists n3, n3'. cbn [train]. rewrite E1. cbn [bind]. rewrite E2. cbn [bind]. rewrite E1'. cbn [bind]. rewrite E2'. cbn [bind].
        split; [exact E3|]. split; [exact E3'|]. replace (k + (INR (length batch) + 1)) with (k + 1 + INR (length batch)) by ring. exact Tw3.
Qed.

Lemma train_exact {BT : Bits R} u us batch batch' (n : network f32) (n' : network R) :
  @training_built f32 AF f32_bits bm n -> @training_built R AR BT bm n' -> layers n <> [] ->
  Forall2 exact_params (map params_of (layers n)) (map params_of (layers n')) ->
  net_training low bm (INR (length batch)) (map params_of (layers n')) u us -> 0 <= fa u -> 0 <= ba (last us u) ->
  Forall2 (sample_grid e low bm (net_input_shape n) (net_output_shape n) u (last us u)) batch batch' ->
  @no_gradients f32 AF bm n -> @no_gradients R AR bm n' ->
  exists n2 n2', @train f32 AF bm n batch = Done (n2, Ok tt) /\ @train R AR bm n' batch' = Done (n2', Ok tt)
    /\ forall i f', nth_error (layers n2') i = Some (LFC f') -> exists f m k wg wg' bgr bgr', nth_error (layers n2) i = Some (LFC f)
         /\ @holds f32 AF bm (fc_weights_gradients f) (mkShape m k 1) wg /\ @holds R AR bm (fc_weights_gradients f') (mkShape m k 1) wg'
         /\ equal_reals (mkShape m k 1) wg wg'
         /\ @holds f32 AF bm (fc_bias_gradients f) (mkShape m 1 1) bgr /\ @holds R AR bm (fc_bias_gradients f') (mkShape m 1 1) bgr'
         /\ equal_reals (mkShape m 1 1) bgr bgr'.
Proof.
  intros TB TB' NE EP NT Pa Pc HS Z Z'.
  pose proof (@built_ok f32 AF f32_bits bm n (f32_relu_agrees e) (training_built_well bm n TB)) as On.
  pose proof (@built_ok R AR BT bm n' (relu_agrees_R low) (training_built_well bm n' TB')) as On'.
  pose proof (levels_pos _ _ _ _ NT Pa Pc) as Pos.
  destruct (@train_round BT (INR (length batch)) u us batch batch' 0 n n' TB TB' NE EP NT Pa Pc (Rle_refl 0) ltac:(lra) HS) as (n2 & n2' & E & E' & Tw).
  { intros i l l' a b Nl Nl' Na Nb. destruct l as [|f| |], l' as [|f'| |]; try exact I. cbn [layer_twins].
    destruct (Z i f Nl) as (Zw & Zb). destruct (Z' i f' Nl') as (Zw' & Zb').
    destruct (exact_layers n n' i _ EP Nl') as (l & Nl2 & El). rewrite Nl in Nl2. injection Nl2 as <-. destruct El as (Ew & Eb).
    destruct On as (_ & Lo & _), On' as (_ & Lo' & _). destruct (Forall_nth _ _ _ _ Lo Nl) as (m & k & O). destruct (Forall_nth _ _ _ _ Lo' Nl') as (m' & k' & O').
    pose proof O as (Ow & Ob & _). pose proof O' as (Ow' & Ob' & _). destruct Ew as (Ew & _). rewrite (proj2 Ow), (proj2 Ow') in Ew. injection Ew as -> ->.
    exists m, k. split; [exact O|]. split; [exact O'|]. rewrite (proj2 Ow) in Zw. rewrite (proj2 Ow') in Zw'. rewrite (proj2 Ob) in Zb. rewrite (proj2 Ob') in Zb'.
    unfold zeros in *. destruct (Pos _ _ Na) as (P1 & P2), (Pos _ _ Nb) as (P3 & P4).
    split; (eapply twins_holds; [eassumption|eassumption|]; intros p q r _; split; [reflexivity|]; split; [reflexivity|]; split; [apply grid_zero|]; cbn; rewrite Rabs_R0, Rmult_0_l; lra). }
  exists n2, n2'. split; [exact E|]. split; [exact E'|]. intros i f' Nf'.
  assert (Par : forall {F} {A : Arith F} b (k k2 : network F), train bm k b = Done (k2, Ok tt) -> map params_of (layers k2) = map params_of (layers k)).
  { clear. intros F A. induction b as [|(X & G) b IH]; intros k k2 E; cbn [train] in E; [injection E as <-; reflexivity|].
    apply bind_done in E. destruct E as ((k1 & [[]|]) & E1 & E); [|discriminate]. apply bind_done in E. destruct E as ((k3 & [[]|]) & E2 & E); [|discriminate].
    rewrite (IH _ _ E). apply ident_split. pose proof (proj1 (infer_kept _ _ _ _ _ E1)). pose proof (proj1 (net_backward_kept _ _ _ _ _ E2)). congruence. }
  pose proof (Par _ _ _ _ _ E) as P2. pose proof (Par _ _ _ _ _ E') as P2'.
  destruct (exact_layers n2 n2' i (LFC f')) as (l & Nl & El); [rewrite P2, P2'; exact EP|exact Nf'|].
  destruct l as [|f| |]; try contradiction El.
  destruct (levels_nth _ _ _ _ NT) as (_ & Lv). destruct (Lv i (params_of (LFC f'))) as (a & b & Na & Nb & _).
  { rewrite <- P2', nth_error_map, Nf'. reflexivity. }
  destruct (Tw i _ _ a b Nl Nf' Na Nb) as (m & k & _ & _ & (S1 & S2 & T1) & (S3 & S4 & T2)).
  exists f, m, k, (@val f32 AF (fc_weights_gradients f)), (@val R AR (fc_weights_gradients f')), (@val f32 AF (fc_bias_gradients f)), (@val R AR (fc_bias_gradients f')).
  split; [exact Nl|]. split; [apply shaped_holds; exact S1|]. split; [apply shaped_holds; exact S2|].
  split; [intros p q r Hin; destruct (T1 p q r Hin) as (F1 & R1 & _); auto|].
  split; [apply shaped_holds; exact S3|]. split; [apply shaped_holds; exact S4|].
  intros p q r Hin; destruct (T2 p q r Hin) as (F1 & R1 & _); auto.
Qed.

Lemma train_true_gradient {BT : Bits R} u us batch batch' (n : network f32) (n' : network R) i f M k w b :
  @training_built f32 AF f32_bits bm n -> @training_built R AR BT bm n' -> layers n <> [] ->
  Forall2 exact_params (map params_of (layers n)) (map params_of (layers n')) ->
  net_training low bm (INR (length batch)) (map params_of (layers n')) u us -> 0 <= fa u -> 0 <= ba (last us u) ->
  Forall2 (sample_grid e low bm (net_input_shape n) (net_output_shape n) u (last us u)) batch batch' ->
  @no_gradients f32 AF bm n -> @no_gradients R AR bm n' ->
  Forall (sample_ok low bm n') batch' ->
  nth_error (layers n') i = Some (LFC f) -> @holds R AR bm (fc_weights f) (mkShape M k 1) w -> @holds R AR bm (fc_bias f) (mkShape M 1 1) b ->
  exists n2 f2 wg bgr dw db loss, @train f32 AF bm n batch = Done (n2, Ok tt) /\ nth_error (layers n2) i = Some (LFC f2)
    /\ @holds f32 AF bm (fc_weights_gradients f2) (mkShape M k 1) wg /\ equal_reals (mkShape M k 1) wg dw
    /\ @holds f32 AF bm (fc_bias_gradients f2) (mkShape M 1 1) bgr /\ equal_reals (mkShape M 1 1) bgr db
    /\ (forall nt W B w' b', @well_built R AR BT bm nt -> map params_of (layers nt) = list_set (map params_of (layers n')) i (PFC W B) ->
          @holds R AR bm W (mkShape M k 1) w' -> @holds R AR bm B (mkShape M 1 1) b' -> batch_loss low bm nt batch' (loss w' b'))
    /\ gradient (mkShape M k 1) (fun w' => loss w' b) w dw
    /\ gradient (mkShape M 1 1) (fun b' => loss w b') b db.
Proof.
  intros TB TB' NE EP NT Pa Pc HS Z Z' Sm Nf Hw Hb.
  destruct (@train_exact BT u us batch batch' n n' TB TB' NE EP NT Pa Pc HS Z Z') as (n2 & n2' & E & E' & Ex).
  destruct (Z' i f Nf) as (Zw & Zb). pose proof (proj2 (holds_shaped _ _ _ _ Hw)) as Sw. pose proof (proj2 (holds_shaped _ _ _ _ Hb)) as Sb. rewrite Sw in Zw. rewrite Sb in Zb.
  assert (Bk : Forall backs_exactly (layers n')).
  { destruct (levels_nth _ _ _ _ NT) as (_ & Lv). apply Forall_forall. intros l' Hl. apply In_nth_error in Hl. destruct Hl as (j & Nj).
    destruct (Lv j (params_of l')) as (a0 & b0 & _ & _ & LT); [rewrite nth_error_map, Nj; reflexivity|]. destruct l'; cbn [params_of] in LT; inversion LT; subst; cbn; auto. }
  destruct (train_batch low bm batch' n' i f M k w b _ _ TB' Bk Sm Nf Hw Hb Zw Zb) as (n3 & f3 & dw & db & loss & E3 & Nf3 & Hwg & Hbg & L & Gw & Gb).
  rewrite E' in E3. injection E3 as <-.
  destruct (Ex i f3 Nf3) as (f2 & m2 & k2 & wg & wg' & bgr & bgr' & Nf2 & H1 & H2 & H3 & H4 & H5 & H6).
  pose proof (holds_shape _ _ _ _ _ _ H2 Hwg) as Q. injection Q as -> ->.
  pose proof (holds_fun _ _ _ _ _ H2 Hwg) as Q1. pose proof (holds_fun _ _ _ _ _ H5 Hbg) as Q2.
  exists n2, f2, wg, bgr, dw, db, loss. split; [exact E|]. split; [exact Nf2|]. split; [exact H1|].
  split. { intros p q r Hin. destruct (H3 p q r Hin) as (F1 & R1). split; [exact F1|]. rewrite R1, (Q1 p q r Hin). cbn. ring. }
  split; [exact H4|].
  split. { intros p q r Hin. destruct (H6 p q r Hin) as (F1 & R1). split; [exact F1|]. rewrite R1, (Q2 p q r Hin). cbn. ring. }
  auto.
Qed.
End Two.
