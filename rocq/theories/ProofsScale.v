(** * C101: scaling by powers of two is exact *)
From Coq Require Import Reals Lra ZifyBool ZifyNat ZifyN.
From Verif Require Import Base Arith Helper Tensor Network Bincode Serial Spec SpecLayer SpecNet SpecReal Loops TensorFacts OpsFacts ProofsTensor LayerFacts NetFacts NetRun Float32 Float32Facts.
From Verif Require Import SpecError FloatError SpecScale FloatScale ProofsFloat ProofsNetError.
Local Open Scope R_scope.

Section Scale.
Context (e : env) (bm : build).
#[local] Hint Extern 0 (Arith f32) => exact (f32_arith e) : typeclass_instances.

Lemma affine_scaled {A} (l : list A) (f f' x x' : A -> f32) b b' c d :
  (forall p, In p l -> scaled c (f p) (f' p)) -> (forall p, In p l -> scaled d (x p) (x' p)) -> scaled (c + d) b b' ->
  (forall p, In p l -> normal_product (f p) (x p)) -> (forall p, In p l -> normal_product (f' p) (x' p)) ->
  fin (fadd (sum (map (fun p => fmul (f p) (x p)) l)) b) = true -> fin (fadd (sum (map (fun p => fmul (f' p) (x' p)) l)) b') = true ->
  scaled (c + d) (relu (fadd (sum (map (fun p => fmul (f p) (x p)) l)) b)) (relu (fadd (sum (map (fun p => fmul (f' p) (x' p)) l)) b')).
Proof.
  intros Hf Hx Hb Hn Hn' F F'. apply (relu_scaled _ e). apply add_scaled; try assumption.
  apply sum_scaled; [|apply zero_scaled|apply (add_finite _ _ _ F)|apply (add_finite _ _ _ F')].
  intros p Hp G G'. apply mul_scaled; auto.
Qed.

Lemma scaled_tensor_holds k (t t' : tensor f32) s f : scaled_tensor bm k t t' -> holds bm t s f -> exists f', holds bm t' s f' /\ scaled_on k s f f'.
Proof.
  intros (s0 & g & g' & H & H' & S) Hf. pose proof (holds_shape _ _ _ _ _ _ H Hf) as ->. exists g'. split; [exact H'|].
  intros i j c Hin. rewrite (holds_fun _ _ _ _ _ Hf H i j c Hin). apply S, Hin.
Qed.

Lemma scaled_nth {A} (P : A -> A -> Prop) l l' n t : Forall2 P l l' -> nth_error l n = Some t -> exists t', nth_error l' n = Some t' /\ P t t'.
Proof. intros H. revert n. induction H as [|a b l l' Hab _ IH]; intros [|n] E; cbn in *; try discriminate; [injection E as <-; eauto|eauto]. Qed.

Lemma layer_scaled c d p p' X X' Y Y' s x x' : scaled_layer bm c d p p' -> layer_in_range bm p X -> layer_in_range bm p' X' ->
  computes bm p X Y -> computes bm p' X' Y' -> holds bm X s x -> holds bm X' s x' -> scaled_on c s x x' ->
  exists s1 y y', holds bm Y s1 y /\ holds bm Y' s1 y' /\ scaled_on d s1 y y'.
Proof.
  intros SP R R' C C' HX HX' Hn.
  destruct C as [wt bt m n w b X0 x0 Y0 Hw Hb Hx Hy|kt bt st ins outs ks h bv X0 x0 Y0 Hk Hl1 Hl2 Hb Hc Hx Hy|ins mask outs st X0 x0 Y0 Hp Hx Hy|s0 X0 x0 Y0 Hx Hy].
  - destruct p' as [wt' bt'| | |]; try contradiction SP. destruct SP as (Ew & Eb).
    destruct (scaled_tensor_holds _ _ _ _ _ Ew Hw) as (w1 & Hw1 & Sw). destruct (scaled_tensor_holds _ _ _ _ _ Eb Hb) as (b1 & Hb1 & Sb).
    pose proof (holds_shape _ _ _ _ _ _ HX Hx) as ->.
    inversion C' as [? ? m2 n2 w2 b2 X2 x2 Y2 Hw2 Hb2 Hx2 Hy2| | |]; subst. clear C'.
    pose proof (holds_shape _ _ _ _ _ _ Hw2 Hw1) as E. injection E as -> ->.
    pose proof (holds_fun _ _ _ _ _ Hw2 Hw1) as Q1. pose proof (holds_fun _ _ _ _ _ Hb2 Hb1) as Q2. pose proof (holds_fun _ _ _ _ _ Hx2 HX') as Q3. pose proof (holds_fun _ _ _ _ _ Hx HX) as Q4.
    do 3 eexists. split; [exact Hy|]. split; [exact Hy2|]. intros i j k (Hi & Hj & Hk). cbn [di dj dk] in *. cbv beta.
    destruct (R _ _ _ _ _ Hw Hb Hx i Hi) as (N1 & F1). destruct (R' _ _ _ _ _ Hw2 Hb2 Hx2 i Hi) as (N2 & F2).
    replace d with (d - c + c)%Z by lia.
    apply (affine_scaled (upto n) (fun q => w i q 0%N) (fun q => w2 i q 0%N) (fun q => x0 q 0%N 0%N) (fun q => x2 q 0%N 0%N)); try assumption.
    + intros q Hq. apply in_upto in Hq. rewrite Q1 by (repeat split; cbn [di dj dk]; lia). apply Sw. repeat split; cbn [di dj dk]; lia.
    + intros q Hq. apply in_upto in Hq. rewrite Q3, Q4 by (repeat split; cbn [di dj dk]; lia). apply Hn. repeat split; cbn [di dj dk]; lia.
    + rewrite Q2 by (repeat split; cbn [di dj dk]; lia). replace (d - c + c)%Z with d by lia. apply Sb. repeat split; cbn [di dj dk]; lia.
    + intros q Hq. apply in_upto in Hq. apply N1, Hq.
    + intros q Hq. apply in_upto in Hq. apply N2, Hq.
  - destruct p' as [|kt' bt' st' ins' outs'| |]; try contradiction SP. destruct SP as (-> & -> & -> & Ek & Eb).
    pose proof (holds_shape _ _ _ _ _ _ HX Hx) as ->.
    inversion C' as [|? ? ? ? ? ks2 h2 bv2 X2 x2 Y2 Hk2 Hl12 Hl22 Hb2 Hc2 Hx2 Hy2| |]; subst. clear C'.
    pose proof (holds_fun _ _ _ _ _ Hx2 HX') as Q3. pose proof (holds_fun _ _ _ _ _ Hx HX) as Q4.
    do 3 eexists. split; [exact Hy|]. split; [exact Hy2|]. intros i j k Hin. pose proof Hin as (Hi & Hj & Hkk). cbv beta.
    destruct (nth_error kt (N.to_nat k)) as [tk|] eqn:Nk; [|apply nth_error_None in Nk; unfold len in Hl1; lia].
    destruct (scaled_nth _ _ _ _ _ Ek Nk) as (tk' & Nk' & Etk). destruct (scaled_tensor_holds _ _ _ _ _ Etk (Hk k tk Nk)) as (h1 & Hh1 & Sh).
    pose proof (holds_shape _ _ _ _ _ _ (Hk2 k tk' Nk') Hh1) as ->. pose proof (holds_fun _ _ _ _ _ (Hk2 k tk' Nk') Hh1) as Q1.
    destruct (nth_error bt (N.to_nat k)) as [tb|] eqn:Nb; [|apply nth_error_None in Nb; unfold len in Hl2; lia].
    destruct (scaled_nth _ _ _ _ _ Eb Nb) as (tb' & Nb' & b0 & b1 & G0 & G1 & Sb).
    rewrite (Hb k tb Nb) in G0. injection G0 as <-. rewrite (Hb2 k tb' Nb') in G1. injection G1 as <-.
    destruct (R _ _ _ _ Hk Hb Hx i j k Hin) as (N1 & F1). destruct (R' _ _ _ _ Hk2 Hb2 Hx2 i j k Hin) as (N2 & F2).
    unfold window_products in *.
    replace d with (c + (d - c))%Z by lia.
    pose proof (affine_scaled (cells ks) (fun '(p, q, r) => x0 (i * st + p)%N (j * st + q)%N r) (fun '(p, q, r) => x2 (i * st + p)%N (j * st + q)%N r)
      (fun '(p, q, r) => h k p q r) (fun '(p, q, r) => h2 k p q r) (bv k) (bv2 k) c (d - c)) as G.

    rewrite (map_ext (fun '(p, q, r) => fmul (x0 (i * st + p)%N (j * st + q)%N r) (h k p q r))
      (fun t => fmul (let '(p, q, r) := t in x0 (i * st + p)%N (j * st + q)%N r) (let '(p, q, r) := t in h k p q r))) in * by (intros ((? & ?) & ?); reflexivity).
    rewrite (map_ext (fun '(p, q, r) => fmul (x2 (i * st + p)%N (j * st + q)%N r) (h2 k p q r))
      (fun t => fmul (let '(p, q, r) := t in x2 (i * st + p)%N (j * st + q)%N r) (let '(p, q, r) := t in h2 k p q r))) in * by (intros ((? & ?) & ?); reflexivity).
    apply G; try assumption.
    + intros ((p & q) & r) Hpq. apply in_cells in Hpq.
      assert (Hpos : in_shape ins (i * st + p) (j * st + q) r) by (apply (conv_inside _ _ _ _ _ _ _ _ _ _ (Hc k Hkk) Hi Hj Hpq)).
      rewrite Q3, Q4 by exact Hpos. apply Hn, Hpos.
    + intros ((p & q) & r) Hpq. apply in_cells in Hpq. rewrite Q1 by exact Hpq. apply Sh, Hpq.
    + replace (c + (d - c))%Z with d by lia. exact Sb.
    + intros ((p & q) & r) Hpq. apply in_cells in Hpq. apply N1, Hpq.
    + intros ((p & q) & r) Hpq. apply in_cells in Hpq. apply N2, Hpq.
  - destruct p' as [| |ins' mask' outs' st'|]; try contradiction SP. destruct SP as (-> & -> & -> & -> & ->).
    pose proof (holds_shape _ _ _ _ _ _ HX Hx) as ->. inversion C' as [| |? ? ? ? X2 x2 Y2 Hp2 Hx2 Hy2|]; subst. clear C'. destruct R as (M1 & M2).
    pose proof (holds_fun _ _ _ _ _ Hx2 HX') as Q3. pose proof (holds_fun _ _ _ _ _ Hx HX) as Q4.
    do 3 eexists. split; [exact Hy|]. split; [exact Hy2|]. intros i j k Hin. cbv beta. unfold window_values.
    apply (max_scaled e); [apply window_nonempty; assumption|]. intros ((p & q) & r) Hpq.
    assert (Hpos : in_shape ins p q r) by (eapply pool_inside; eassumption). rewrite Q3, Q4 by exact Hpos. apply Hn, Hpos.
  - destruct R.
Qed.

Lemma composes_scaled c d ps ps' : scaled_layers bm c d ps ps' -> forall X X' Y Y' s x x', in_range bm ps X -> in_range bm ps' X' ->
  composes bm ps X Y -> composes bm ps' X' Y' -> holds bm X s x -> holds bm X' s x' -> scaled_on c s x x' ->
  exists s1 y y', holds bm Y s1 y /\ holds bm Y' s1 y' /\ scaled_on d s1 y y'.
Proof.
  induction 1 as [c|c d f p p' ps ps' Hp _ IH]; intros X X' Y Y' s x x' R R' C C' HX HX' Hn; cbn [composes in_range] in *.
  - subst. eauto 6.
  - destruct C as (Z & C1 & C2), C' as (Z' & C1' & C2'). destruct R as (R1 & R2), R' as (R1' & R2').
    destruct (layer_scaled _ _ _ _ _ _ _ _ _ _ _ Hp R1 R1' C1 C1' HX HX' Hn) as (s1 & y & y' & Hy & Hy' & Hn1).
    eapply IH; eauto.
Qed.

Lemma output_shape (n : network f32) Y : net_ok n -> get_output n = Done (Ok Y) -> tshape Y = net_output_shape n.
Proof.
  intros ((_ & _ & H3 & H4) & _) G. unfold get_output in G. destruct (len (intermediate_states n) <? 2)%N; [discriminate|].
  destruct (rev (intermediate_states n)) as [|t r] eqn:E; [discriminate|]. injection G as ->.
  apply (f_equal (@rev _)) in E. rewrite rev_involutive in E. cbn [rev] in E. rewrite H3, <- H4, E, map_app. cbn [map]. symmetry. apply last_last.
Qed.

Lemma network_scaled c d (n n' : network f32) X X' x x' :
  well_built bm n -> well_built bm n' -> layers n <> [] -> scaled_layers bm c d (map params_of (layers n)) (map params_of (layers n')) ->
  holds bm X (net_input_shape n) x -> holds bm X' (net_input_shape n) x' -> net_input_shape n' = net_input_shape n -> scaled_on c (net_input_shape n) x x' ->
  in_range bm (map params_of (layers n)) X -> in_range bm (map params_of (layers n')) X' ->
  exists n1 n1' Y Y' y y', infer bm n X = Done (n1, Ok tt) /\ infer bm n' X' = Done (n1', Ok tt) /\ get_output n1 = Done (Ok Y) /\ get_output n1' = Done (Ok Y')
    /\ holds bm Y (net_output_shape n) y /\ holds bm Y' (net_output_shape n) y' /\ scaled_on d (net_output_shape n) y y'.
Proof.
  intros B B' NE SP HX HX' Si Hn R R'. pose proof (built_ok bm n (f32_relu_agrees e) B) as K. pose proof (built_ok bm n' (f32_relu_agrees e) B') as K'.
  assert (NE' : layers n' <> []). { intros E. rewrite E in SP. cbn [map] in SP. inversion SP; subst. match goal with H : [] = map _ _ |- _ => symmetry in H; apply map_eq_nil in H end. contradiction. }
  destruct (infer_ok bm n X (f32_relu_agrees e) K NE (proj1 (holds_shaped _ _ _ _ HX)) (proj2 (holds_shaped _ _ _ _ HX))) as (n1 & Y & E & K1 & _ & G & C).
  destruct (infer_ok bm n' X' (f32_relu_agrees e) K' NE' (proj1 (holds_shaped _ _ _ _ HX'))) as (n1' & Y' & E' & _ & _ & G' & C').
  { rewrite Si. apply (holds_shaped _ _ _ _ HX'). }
  destruct (composes_scaled _ _ _ _ SP X X' Y Y' _ x x' R R' C C' HX HX' Hn) as (s & y & y' & Hy & Hy' & N1).
  assert (s = net_output_shape n) as ->.
  { rewrite <- (proj2 (holds_shaped _ _ _ _ Hy)), (output_shape _ _ K1 G). destruct (infer_kept _ _ _ _ _ E) as (_ & _ & _ & Q & _). exact Q. }
  exists n1, n1', Y, Y', y, y'. auto 10.
Qed.

Lemma network_same_bits (n n' : network f32) (X : tensor f32) :
  well_built bm n -> well_built bm n' -> layers n <> [] -> scaled_layers bm 0 0 (map params_of (layers n)) (map params_of (layers n')) ->
  wf X -> tshape X = net_input_shape n -> net_input_shape n' = net_input_shape n -> Forall (fun v => fin v = true) (data X) ->
  in_range bm (map params_of (layers n)) X -> in_range bm (map params_of (layers n')) X ->
  exists n1 n1' Y, infer bm n X = Done (n1, Ok tt) /\ infer bm n' X = Done (n1', Ok tt) /\ get_output n1 = Done (Ok Y) /\ get_output n1' = Done (Ok Y).
Proof.
  intros B B' NE SP WX SX Si Fn R R'. pose proof (holds_wf bm X WX) as HX. rewrite SX in HX.
  assert (S0 : scaled_on 0 (net_input_shape n) (val X) (val X)).
  { intros i j k Hin. assert (F : fin (val X i j k) = true).
    { destruct WX as (A & _ & L). rewrite <- SX in Hin. unfold val. rewrite Forall_forall in Fn. apply Fn, nth_In. pose proof (flat_lt _ _ _ _ Hin) as Q. unfold len in L. lia. }
    split; [exact F|]. split; [exact F|]. split; [reflexivity|]. rewrite pow2. cbn. ring. }
  destruct (network_scaled 0 0 n n' X X _ _ B B' NE SP HX HX Si S0 R R') as (n1 & n1' & Y & Y' & y & y' & E & E' & G & G' & H & H' & S).
  assert (Y' = Y) as ->. { apply (holds_eq bm _ _ _ _ _ H' H). intros i j k Hin. apply scaled_same, S, Hin. }
  exists n1, n1', Y. auto.
Qed.
End Scale.
