(** * C97: the two instances *)
From Coq Require Import Reals Lra ZifyBool ZifyNat ZifyN.
From Verif Require Import Base Arith Helper Tensor Convolution Network Bincode Serial Spec SpecLayer SpecNet SpecModes Float32 ProofsFloat RealArith ProofsGrad.
From Verif Require Import LayerFacts NetFacts NetRun NetBack SpecOpposed ProofsOpposite ProofsOpposed.
Local Open Scope R_scope.

Section Any.
Context {F : Type} {AR : Arith F} {BT : Bits F}.
Notation T := (tensor F).
Context (rel : F -> F -> Prop) (R0 : rel fzero fzero)
  (RA : forall x x' y y', rel x x' -> rel y y' -> rel (fadd x y) (fadd x' y'))
  (RM : forall c x x', rel x x' -> rel (fmul c x) (fmul c x') /\ rel (fmul x c) (fmul x' c)).

Lemma zeros_related bm (t : T) s : zeros bm t s -> related rel bm t t.
Proof. intros Z. do 3 eexists. split; [exact Z|]. split; [exact Z|]. intros; exact R0. Qed.

Lemma zeros_list bm {B} (f : B -> shape) (l : list T) (k : list B) : Forall2 (fun g x => zeros bm g (f x)) l k -> Forall2 (related rel bm) l l.
Proof. induction 1; constructor; [eapply zeros_related; eassumption|assumption]. Qed.

Lemma cleared_related bm (l : layer F) : cleared bm l -> layer_related rel bm l l.
Proof.
  intros C. do 3 (split; [reflexivity|]). destruct l as [l|l|l|l]; cbn [cleared] in C; try exact I.
  - destruct C as (C1 & C2 & _). split; [exact (zeros_list bm tshape _ _ C1)|exact (zeros_list bm (fun _ => mkShape 1 1 1) _ _ C2)].
  - destruct C as (C1 & _ & C2 & _). split; eapply zeros_related; eassumption.
Qed.

Lemma cleared_all bm (ls : list (layer F)) : Forall (cleared bm) ls -> Forall2 (layer_related rel bm) ls ls.
Proof. induction 1; constructor; [apply cleared_related; assumption|assumption]. Qed.

Lemma built_related bm (n n' : network F) (samples samples' : list (T * T)) : relu_agrees F ->
  training_built bm n -> training_built bm n' -> Forall2 (layer_related rel bm) (layers n) (layers n') ->
  layers n <> [] -> Forall stays_inside (layers n) -> Forall backs (layers n) ->
  Forall (fun a => shaped (fst a) (net_input_shape n) /\ shaped (snd a) (net_output_shape n)) samples ->
  Forall2 (fun a b => fst b = fst a /\ related rel bm (snd a) (snd b)) samples samples' ->
  exists m m', session bm n samples m /\ session bm n' samples' m' /\ Forall2 (layer_related rel bm) (layers m) (layers m')
    /\ (samples <> [] -> intermediate_states m' = intermediate_states m /\ Forall2 (related rel bm) (intermediate_gradients m) (intermediate_gradients m')).
Proof.
  intros RG B B' RR NE NC HB SS HH.
  apply (session_related rel R0 RA RM bm RG samples samples' HH n n'); try assumption.
  - exact (built_ok bm n RG (training_built_well bm n B)).
  - exact (built_ok bm n' RG (training_built_well bm n' B')).
  - exact (training_built_in bm n RG B).
  - exact (training_built_in bm n' RG B').
Qed.
End Any.

Theorem session_negated : forall e bm (n n' : network f32) samples samples',
  let AR := f32_arith e in
  training_built bm n -> training_built bm n' -> Forall2 (layer_related opposite bm) (layers n) (layers n') ->
  layers n <> [] -> Forall stays_inside (layers n) -> Forall backs (layers n) ->
  Forall (fun a => shaped (fst a) (net_input_shape n) /\ shaped (snd a) (net_output_shape n)) samples ->
  Forall2 (fun a b => fst b = fst a /\ related opposite bm (snd a) (snd b)) samples samples' ->
  exists m m', session bm n samples m /\ session bm n' samples' m' /\ Forall2 (layer_related opposite bm) (layers m) (layers m')
    /\ (samples <> [] -> intermediate_states m' = intermediate_states m /\ Forall2 (related opposite bm) (intermediate_gradients m) (intermediate_gradients m')).
Proof.
  intros e bm n n' samples samples' AR. apply (@built_related f32 (f32_arith e) f32_bits opposite opposite_zero (opposite_add e) (opposite_mul e) bm n n' samples samples' (f32_relu_agrees e)).
Qed.

Theorem session_negated_zero : forall e bm (n : network f32) samples samples',
  let AR := f32_arith e in
  training_built bm n -> Forall (cleared bm) (layers n) ->
  layers n <> [] -> Forall stays_inside (layers n) -> Forall backs (layers n) ->
  Forall (fun a => shaped (fst a) (net_input_shape n) /\ shaped (snd a) (net_output_shape n)) samples ->
  Forall2 (fun a b => fst b = fst a /\ related opposite bm (snd a) (snd b)) samples samples' ->
  exists m m', session bm n samples m /\ session bm n samples' m' /\ Forall2 (layer_related opposite bm) (layers m) (layers m').
Proof.
  intros e bm n samples samples' AR B C NE NC HB SS HH.
  destruct (session_negated e bm n n samples samples' B B (@cleared_all f32 (f32_arith e) opposite opposite_zero bm _ C) NE NC HB SS HH) as (m & m' & E & E' & R & _). eauto 6.
Qed.

Theorem session_scaled : forall low (BT : Bits R) bm c (n : network R) samples samples',
  let AR := R_arith low in let scaled x y := y = c * x in
  training_built bm n -> Forall (cleared bm) (layers n) ->
  layers n <> [] -> Forall stays_inside (layers n) -> Forall backs (layers n) ->
  Forall (fun a => shaped (fst a) (net_input_shape n) /\ shaped (snd a) (net_output_shape n)) samples ->
  Forall2 (fun a b => fst b = fst a /\ related scaled bm (snd a) (snd b)) samples samples' ->
  exists m m', session bm n samples m /\ session bm n samples' m' /\ Forall2 (layer_related scaled bm) (layers m) (layers m')
    /\ (samples <> [] -> intermediate_states m' = intermediate_states m /\ Forall2 (related scaled bm) (intermediate_gradients m) (intermediate_gradients m')).
Proof.
  intros low BT bm c n samples samples' AR scaled B C NE NC HB SS HH.
  assert (Z : scaled fzero fzero) by (unfold scaled; cbn; ring).
  refine (built_related scaled Z _ _ bm n n samples samples' (relu_agrees_R low) B B (cleared_all scaled Z bm _ C) NE NC HB SS HH).
  - unfold scaled. cbn. intros x x' y y' -> ->. ring.
  - unfold scaled. cbn. intros w x x' ->. split; ring.
Qed.
