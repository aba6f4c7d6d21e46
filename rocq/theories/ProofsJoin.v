(** * C61, C66: loading behind existing layers, and what a file determines *)
From Coq Require Import ZifyBool ZifyNat ZifyN.
From Verif Require Import Base Arith Helper Tensor Convolution Network Bincode Serial Float32 Spec SpecLayer SpecNet SpecSerial.
From Verif Require Import Loops TensorFacts OpsFacts ProofsTensor ProofsFloat LayerFacts NetFacts NetRun NetBack ProofsNet SerialFacts SerialLayer ProofsSerial.
Local Open Scope list_scope.
Local Open Scope string_scope.
Local Open Scope N_scope.
Local Open Scope list_scope.

Section Scalars.
Context {F : Type} {AR : Arith F} {BT : Bits F} (BO : bits_ok (F := F)) (RA : relu_agrees F).
Notation T := (tensor F).

Lemma composes_app bm ps1 ps2 : forall X Y Z : T, composes bm ps1 X Y -> composes bm ps2 Y Z -> composes bm (ps1 ++ ps2) X Z.
Proof.
  induction ps1 as [|p ps1 IH]; intros X Y Z C1 C2; cbn [app composes] in *; [subst; exact C2|]. destruct C1 as (Y' & C0 & C1). eauto.
Qed.

Lemma load_behind bm h n n0 fs name : valid_order h -> structured n -> Forall storable (layers n) -> net_ok n0 ->
  len (to_byte_array h (new_from_network n)) < W64 -> fs name = Some (to_byte_array h (new_from_network n)) ->
  layers n <> [] -> layers n0 <> [] -> net_output_shape n0 = net_input_shape n ->
  exists n', network_load bm n0 fs name = Done (n', Ok tt) /\ net_ok n' /\ net_run_state n' = net_run_state n0
    /\ map ident (layers n') = map ident (layers n0) ++ map (fun l => (params_of l, get_name l, net_run_state n0)) (layers n).
Proof.
  intros V (Lk & Hd & _) St Ok0 L E NE NE0 D. unfold network_load. rewrite E, (codec_deserialize_nil _ _ _ (codec_saved h n V L)).
  destruct (load_loop BO bm h (layers n) V St 0 n0 Ok0) as (n' & E' & Ok' & R' & M').
  { destruct (layers n0); [congruence|]. rewrite D. exact Lk. }
  exists n'. split; [|auto]. rewrite <- E'. f_equal. unfold order_network, order_from, new_from_network. rewrite map_length. reflexivity.
Qed.

Lemma output_shaped (n : network F) (Y : T) : net_ok n -> layers n <> [] -> get_output n = Done (Ok Y) -> shaped Y (net_output_shape n).
Proof.
  intros (St & _ & Sw & _) NE G. rewrite (proj1 (output_is_last n St) NE) in G. pose proof St as (_ & _ & H3 & _).
  destruct (proj1 (state_exposed n (len (layers n)) St)) as (t & E & Nb); [split; [apply N.le_refl|exact NE]|].
  rewrite E in G. injection G as <-. rewrite (last_boundary (layers n) (mkShape 0 0 0) NE), <- H3 in Nb. injection Nb as Sh. split; [|symmetry; exact Sh].
  unfold get_intermediate_state in E. destruct (_ <=? _); [discriminate E|].
  apply bind_done in E. destruct E as (t' & V & E). injection E as ->. apply vget_done in V.
  rewrite Forall_forall in Sw. apply Sw. eapply nth_error_In. exact (proj2 V).
Qed.

Lemma infer_joined bm n0 n n' (X : T) : net_ok n0 -> net_ok n -> net_ok n' -> layers n0 <> [] -> layers n <> [] ->
  map params_of (layers n') = map params_of (layers n0) ++ map params_of (layers n) -> net_output_shape n0 = net_input_shape n ->
  net_input_shape n' = net_input_shape n0 ->
  wf X -> tshape X = net_input_shape n0 ->
  exists n1 Y n2 Z n3, infer bm n0 X = Done (n1, Ok tt) /\ get_output n1 = Done (Ok Y)
    /\ infer bm n Y = Done (n2, Ok tt) /\ get_output n2 = Done (Ok Z) /\ infer bm n' X = Done (n3, Ok tt) /\ get_output n3 = Done (Ok Z).
Proof.
  intros O0 O O' NE0 NE P Sh Shi W SX.
  destruct (infer_ok bm n0 X RA O0 NE0 W SX) as (n1 & Y & E1 & O1 & I1 & G1 & C1).
  assert (SY : shaped Y (net_output_shape n0)).
  { rewrite <- (proj1 (proj2 (proj2 (proj2 (infer_kept _ _ _ _ _ E1))))). apply (output_shaped n1 Y O1); [|exact G1].
    intros Q. rewrite Q in I1. destruct (layers n0); [congruence|discriminate I1]. }
  destruct (infer_ok bm n Y RA O NE (proj1 SY)) as (n2 & Z & E2 & _ & _ & G2 & C2); [rewrite (proj2 SY); exact Sh|].
  assert (NE' : layers n' <> []).
  { intros Q. rewrite Q in P. destruct (layers n0); [congruence|discriminate P]. }
  destruct (infer_ok bm n' X RA O' NE' W) as (n3 & Z' & E3 & _ & _ & G3 & C3); [congruence|].
  exists n1, Y, n2, Z, n3. do 5 (split; [assumption|]). rewrite G3. do 2 f_equal.
  rewrite P in C3. eapply composes_fun; [exact C3|]. eapply composes_app; eassumption.
Qed.

(** Files of any two networks, written in any order. *)
Lemma same_file (bm : build) h h' (n n' : network F) : valid_order h -> valid_order h' -> structured n -> structured n' ->
  Forall storable (layers n) -> Forall storable (layers n') -> len (to_byte_array h (new_from_network n)) < W64 ->
  to_byte_array h (new_from_network n) = to_byte_array h' (new_from_network n') ->
  map params_of (layers n) = map params_of (layers n') /\ map get_name (layers n) = map get_name (layers n').
Proof.
  intros V V' S S' St St' L E. set (fs := fs_set (fun _ => None) "" (to_byte_array h (new_from_network n))).
  destruct (network_round_trip BO bm h Inference n fs "" V S St L) as (m & Em & _ & _ & M); [apply fs_set_same|].
  destruct (network_round_trip BO bm h' Inference n' fs "" V' S' St') as (m' & Em' & _ & _ & M'); [rewrite <- E; exact L|rewrite <- E; apply fs_set_same|].
  rewrite Em in Em'. injection Em' as <-. rewrite M in M'.
  split; [apply (f_equal (map (fun x => fst (fst x)))) in M'|apply (f_equal (map (fun x => snd (fst x)))) in M']; rewrite !map_map in M'; exact M'.
Qed.

End Scalars.

(** ** f32 *)
Section F32.
Context (e : env).
Let AR : Arith f32 := f32_arith e.
Local Existing Instance AR.

Lemma join_loaded bm h (n n0 : network f32) fs name :
  well_built bm n -> Forall storable (layers n) -> well_built bm n0 -> valid_order h -> len (to_byte_array h (new_from_network n)) < W64 ->
  layers n <> [] -> layers n0 <> [] -> net_output_shape n0 = net_input_shape n ->
  exists n', network_load bm n0 (fst (network_save h n fs name WriteOk)) name = Done (n', Ok tt)
    /\ map params_of (layers n') = map params_of (layers n0) ++ map params_of (layers n)
    /\ map get_name (layers n') = map get_name (layers n0) ++ map get_name (layers n)
    /\ forall X, shaped X (net_input_shape n0) ->
         exists n1 Y n2 Z n3, infer bm n0 X = Done (n1, Ok tt) /\ get_output n1 = Done (Ok Y)
           /\ infer bm n Y = Done (n2, Ok tt) /\ get_output n2 = Done (Ok Z) /\ infer bm n' X = Done (n3, Ok tt) /\ get_output n3 = Done (Ok Z).
Proof.
  intros B St B0 V L NE NE0 D. pose proof (built_ok bm n (f32_relu_agrees e) B) as O. pose proof (built_ok bm n0 (f32_relu_agrees e) B0) as O0.
  destruct (load_behind f32_bits_ok bm h n n0 (fst (network_save h n fs name WriteOk)) name V (proj1 O) St O0 L) as (n' & E & O' & _ & M); try assumption.
  { apply fs_set_same. }
  exists n'. split; [exact E|].
  assert (P : map params_of (layers n') = map params_of (layers n0) ++ map params_of (layers n)).
  { apply (f_equal (map (fun x => fst (fst x)))) in M. rewrite map_app, !map_map in M. exact M. }
  split; [exact P|]. split. { apply (f_equal (map (fun x => snd (fst x)))) in M. rewrite map_app, !map_map in M. exact M. }
  intros X (W & S). apply (infer_joined (f32_relu_agrees e)); try assumption.
  destruct (load_keeps _ _ _ _ _ _ E) as (ls & ss & _ & _ & _ & Q). exact (Q NE0).
Qed.

Lemma file_determines bm (n n' : network f32) h h' : well_built bm n -> well_built bm n' -> Forall storable (layers n) -> Forall storable (layers n') ->
  valid_order h -> valid_order h' -> len (to_byte_array h (new_from_network n)) < W64 ->
  to_byte_array h (new_from_network n) = to_byte_array h' (new_from_network n') ->
  map params_of (layers n) = map params_of (layers n') /\ map get_name (layers n) = map get_name (layers n').
Proof.
  intros B B' St St' V V' L E. apply (same_file f32_bits_ok bm h h'); try assumption; apply (built_ok bm); try assumption; apply f32_relu_agrees.
Qed.

End F32.
