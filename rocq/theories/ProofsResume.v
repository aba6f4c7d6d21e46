(** * A saved network resumes training exactly *)
From Coq Require Import ZifyBool ZifyNat ZifyN.
From Verif Require Import Base Arith Helper Tensor Convolution Network Bincode Serial Spec SpecLayer SpecNet SpecSerial SpecModes Loops TensorFacts OpsFacts.
From Verif Require Import ProofsTensor ProofsConv Layout LayerFacts NetFacts ProofsPool NetRun ProofsModes SerialFacts ProofsSerial Float32 ProofsFloat.
Ltac Zify.zify_post_hook ::= Z.div_mod_to_equations.

Section Facts.
Context {F : Type} {AR : Arith F}.
Notation T := (tensor F).

(** ** What was in the output before does not matter *)
Lemma forward_overwrites bm l (X Y0 Y1 : T) : layer_ok l -> shaped X (get_input_shape l) ->
  shaped Y0 (get_output_shape l) -> shaped Y1 (get_output_shape l) -> forward bm l X Y0 = forward bm l X Y1.
Proof.
  intros H Hx H0 H1. pose proof (shaped_eq _ _ Hx) as (Ax & Ex). pose proof (shaped_eq _ _ H0) as (A0 & E0). pose proof (shaped_eq _ _ H1) as (A1 & E1).
  destruct l as [l|l|l|l]; cbn [layer_ok get_input_shape get_output_shape forward] in *; f_equal.
  - destruct H as (ks & Ak & Hk & Ek & Lb & Hb & Ai & Ao & P & Ht). unfold cv_forward. rewrite Nrange_upto, E0, E1, Ex. destruct (cv_run_state l).
    + rewrite !(conv_channels_relu bm _ _ _ _ _ ks) by first [assumption|lia]. cbn [bind]. do 3 f_equal. apply of_fun_ext.
      intros i j k (_ & _ & Hd). replace (k <? dk (cv_output_shape l)) with true by lia. reflexivity.
    + rewrite !(conv_channels_plain bm _ _ _ _ _ ks) by first [assumption|lia]. cbn [bind].
      match goal with |- context [relu_self_and_store_mask (of_fun ?s ?f)] => match goal with |- context [relu_self_and_store_mask (of_fun s ?g)] =>
        tryif constr_eq f g then fail else replace (of_fun s f) with (of_fun s g); [reflexivity|] end end.
      apply of_fun_ext. intros i j k (_ & _ & Hd). replace (k <? dk (cv_output_shape l)) with true by lia. reflexivity.
  - destruct H as (m & n & Hw & Hb & Ht). unfold fc_input_shape, fc_output_shape, get_shape in *.
    rewrite (proj2 Hw) in *. rewrite (proj2 Hb) in *. cbn [di dj dk] in *.
    pose proof (shaped_eq _ _ Hw) as (Aw & Ew). pose proof (shaped_eq _ _ Hb) as (Ab & Eb). unfold fc_forward. rewrite Ew, Eb, Ex, E0, E1.
    destruct (fc_run_state l).
    + rewrite !matrix_multiply_add_relu_of_fun by (try assumption; try reflexivity; apply mm_check). reflexivity.
    + rewrite !matrix_multiply_of_fun by (try assumption; try reflexivity; apply mm_check). reflexivity.
  - destruct H as (Ai & A & P & Ht).
    assert (C : check_max_pooling_dimensions bm (mp_input_shape l) (mp_mask_shape l) (mp_stride l) (mp_output_shape l) = Done true)
      by (apply check_pool_complete; [apply u32_shape_alloc; exact A|exact P]).
    unfold mp_forward. rewrite E0, E1, Ex. destruct (mp_run_state l) eqn:R.
    + rewrite !max_pool_of_fun by assumption. reflexivity.
    + rewrite !track_of_fun by (try assumption; apply Ht; reflexivity). reflexivity.
  - unfold sm_forward. rewrite E0, E1, Ex, !softmax_of_fun. reflexivity.
Qed.

Lemma firstn_nth {A} (l : list A) n k : (k < n)%nat -> nth_error (firstn n l) k = nth_error l k.
Proof. revert n k; induction l as [|a l IH]; intros [|n] [|k] H; cbn; try reflexivity; try lia. apply IH. lia. Qed.

Lemma vget_of_nth {A} (l : list A) i x : nth_error l (N.to_nat i) = Some x -> vget l i = Done x.
Proof. intros N. destruct (vget_some l i) as (y & Ny & E); [unfold len; apply nth_error_Some_lt in N; lia|]. congruence. Qed.

Lemma firstn_list_set {A} (l : list A) n x : firstn n (list_set l n x) = firstn n l.
Proof. revert n; induction l as [|a l IH]; intros [|n]; cbn; try reflexivity. f_equal. apply IH. Qed.

(** Two runs of the forward loop from states that differ in what is about to be overwritten. *)
Lemma infer_loop_same bm (ls : list (layer F)) st1 st2 X k s0 :
  relu_agrees F -> linked s0 ls -> map tshape st1 = boundaries ls -> map tshape st2 = boundaries ls -> Forall layer_ok ls -> Forall wf st1 -> Forall wf st2 ->
  nth_error st1 0 = Some X -> nth_error st2 0 = Some X -> k <= len ls ->
  exists ls' st1' st2', tryM (upto k) (infer_step bm) (ls, st1) = Done ((ls', st1'), Ok tt) /\ tryM (upto k) (infer_step bm) (ls, st2) = Done ((ls', st2'), Ok tt)
    /\ firstn (S (N.to_nat k)) st1' = firstn (S (N.to_nat k)) st2'.
Proof.
  intros RA Hl Hs1 Hs2 Ho Hw1 Hw2 H1 H2. induction k as [|k IH] using N.peano_ind; intros Hk.
  - exists ls, st1, st2. rewrite upto_0. cbn [tryM]. do 2 (split; [reflexivity|]). change (N.to_nat 0) with 0%nat.
    destruct st1, st2; try discriminate. cbn in H1, H2 |- *. congruence.
  - destruct IH as (ls' & t1 & t2 & E1 & E2 & Fp); [lia|].
    destruct (infer_loop bm ls st1 X k s0) as (ls1 & t1' & E1' & I1 & O1 & L1 & W1 & _); try assumption; [lia|].
    rewrite E1 in E1'. injection E1' as <- <-.
    destruct (infer_loop bm ls st2 X k s0) as (ls2 & t2' & E2' & _ & _ & L2 & W2 & _); try assumption; [lia|].
    rewrite E2 in E2'. injection E2' as <- <-.
    rewrite upto_succ, !tryM_app, E1, E2. cbn [bind tryM].
    assert (P1 : map params_of ls' = map params_of ls) by (apply ident_split; exact I1).
    destruct (vget_some ls' k) as (l & Nl & Vl).
    { assert (len ls' = len ls) by (rewrite <- (len_map ident ls'), I1, len_map; reflexivity). lia. }
    pose proof (Forall_nth _ _ _ _ O1 Nl) as Ol.
    assert (Nb := nth_boundaries ls' s0 (N.to_nat k) l (linked_params _ _ _ P1 Hl)).
    destruct Nb as (B1 & B2); [|exact Nl|].
    { destruct ls' as [|a ls1]; [left; reflexivity|right]. apply linked_params with (ls' := a :: ls1) in Hl; [|exact P1].
      cbn [linked] in Hl. destruct Hl as (<- & _). reflexivity. }
    rewrite (boundaries_params _ _ P1) in B1, B2.
    assert (S1 : map tshape t1 = boundaries ls).
    { pose proof (f_equal (map (fun x => snd (fst x))) L1) as Q. rewrite !map_map in Q. rewrite <- Hs1. exact Q. }
    assert (S2 : map tshape t2 = boundaries ls).
    { pose proof (f_equal (map (fun x => snd (fst x))) L2) as Q. rewrite !map_map in Q. rewrite <- Hs2. exact Q. }
    pose proof B2 as B2'. rewrite <- S1 in B1, B2. rewrite <- S2 in B2'. apply map_nth_is in B1, B2, B2'.
    destruct B1 as (x & Nx & Sx), B2 as (y1 & Ny1 & Sy1), B2' as (y2 & Ny2 & Sy2).
    assert (Nx2 : nth_error t2 (N.to_nat k) = Some x).
    { rewrite <- Nx. rewrite <- (firstn_nth t1 (S (N.to_nat k)) (N.to_nat k)) by lia.
      rewrite <- (firstn_nth t2 (S (N.to_nat k)) (N.to_nat k)) by lia. rewrite Fp. reflexivity. }
    replace (S (N.to_nat k)) with (N.to_nat (k + 1)) in Ny1, Ny2 by lia.
    unfold infer_step at 1 2, get_or_unwrap. rewrite Vl, (vget_of_nth _ _ _ Nx), (vget_of_nth _ _ _ Nx2), (vget_of_nth _ _ _ Ny1), (vget_of_nth _ _ _ Ny2). cbn [bind].
    assert (Fx : shaped x (get_input_shape l)) by (split; [exact (Forall_nth _ _ _ _ W1 Nx)|exact Sx]).
    assert (F1 : shaped y1 (get_output_shape l)) by (split; [exact (Forall_nth _ _ _ _ W1 Ny1)|exact Sy1]).
    assert (F2 : shaped y2 (get_output_shape l)) by (split; [exact (Forall_nth _ _ _ _ W2 Ny2)|exact Sy2]).
    rewrite (forward_overwrites bm l x y1 y2 Ol Fx F1 F2).
    destruct (forward_ok bm l x y2 RA Ol Fx F2) as (l' & Y & EF & _). rewrite EF. cbn [bind].
    assert (G1 : k + 1 < len t1) by (unfold len; apply nth_error_Some_lt in Ny1; lia).
    assert (G2 : k + 1 < len t2) by (unfold len; apply nth_error_Some_lt in Ny2; lia).
    rewrite !vset_done by (first [assumption|apply vget_done in Vl; tauto]). cbn [bind].
    do 3 eexists. split; [reflexivity|]. split; [reflexivity|].
    replace (N.to_nat (N.succ k)) with (N.to_nat (k + 1)) by lia.
    rewrite !(firstn_snoc _ (N.to_nat (k + 1)) Y) by (apply nth_error_list_set_same; unfold len in *; lia).
    f_equal. rewrite !firstn_list_set. replace (N.to_nat (k + 1)) with (S (N.to_nat k)) by lia. exact Fp.
Qed.

Lemma infer_equal bm (n1 n2 : network F) (X : T) : relu_agrees F -> net_ok n1 -> net_ok n2 ->
  layers n1 = layers n2 -> intermediate_gradients n1 = intermediate_gradients n2 -> net_run_state n1 = net_run_state n2 ->
  layers n1 <> [] -> shaped X (net_input_shape n1) ->
  exists m, infer bm n1 X = Done (m, Ok tt) /\ infer bm n2 X = Done (m, Ok tt).
Proof.
  intros RA (St1 & Lo & W1 & _) (St2 & _ & W2 & _) El Eg Er NE (WX & SX).
  pose proof (states_length n1 St1) as Ls1. pose proof (states_length n2 St2) as Ls2.
  pose proof St1 as (H1 & H2 & H3 & H4). pose proof St2 as (_ & K2 & K3 & K4). rewrite <- El in K2, K3, K4, Ls2.
  assert (Si : net_input_shape n2 = net_input_shape n1) by congruence. assert (So : net_output_shape n2 = net_output_shape n1) by congruence.
  unfold infer, get_shape. rewrite <- El, Si, So, SX, <- Eg, <- Er, shape_eqb_refl. cbn [negb].
  destruct (layers n1) as [|l0 ls0] eqn:E0; [congruence|]. rewrite <- E0 in *. clear NE.
  assert (Ll : 1 <= len (layers n1)) by (rewrite E0; unfold len; cbn [length]; lia).
  assert (L1 : len (intermediate_states n1) = len (layers n1) + 1) by (rewrite Ls1, E0; reflexivity).
  assert (L2 : len (intermediate_states n2) = len (layers n1) + 1) by (rewrite Ls2, E0; reflexivity).
  destruct (N.ltb_spec (len (intermediate_states n1)) 2); [lia|]. destruct (N.ltb_spec (len (intermediate_states n2)) 2); [lia|].
  rewrite !vset_done by lia. cbn [bind]. change (N.to_nat 0) with 0%nat.
  destruct (intermediate_states n1) as [|s1 ss1] eqn:Es1; [unfold len in L1; cbn in L1; lia|].
  destruct (intermediate_states n2) as [|s2 ss2] eqn:Es2; [unfold len in L2; cbn in L2; lia|]. cbn [list_set]. rewrite Nrange_upto.
  destruct (infer_loop_same bm (layers n1) (X :: ss1) (X :: ss2) X (len (layers n1)) (net_input_shape n1) RA) as (ls & t1 & t2 & E1 & E2 & Fp); try assumption; try reflexivity.
  - cbn [map] in *. rewrite <- H4. f_equal. rewrite SX, H2, <- H4. reflexivity.
  - cbn [map] in *. rewrite <- K4. f_equal. rewrite SX, H2, <- K4. reflexivity.
  - constructor; [exact WX|]. inversion W1; assumption.
  - constructor; [exact WX|]. inversion W2; assumption.
  - destruct (infer_loop bm (layers n1) (X :: ss1) X (len (layers n1)) (net_input_shape n1) RA) as (ls' & t1' & E1' & _ & _ & G1 & _); try assumption; try reflexivity.
    { cbn [map] in *. rewrite <- H4. f_equal. rewrite SX, H2, <- H4. reflexivity. } { constructor; [exact WX|]. inversion W1; assumption. }
    rewrite E1 in E1'. injection E1' as <- <-.
    destruct (infer_loop bm (layers n1) (X :: ss2) X (len (layers n1)) (net_input_shape n1) RA) as (ls'' & t2' & E2' & _ & _ & G2 & _); try assumption; try reflexivity.
    { cbn [map] in *. rewrite <- K4. f_equal. rewrite SX, H2, <- K4. reflexivity. } { constructor; [exact WX|]. inversion W2; assumption. }
    rewrite E2 in E2'. injection E2' as <- <-.
    rewrite E1, E2. cbn [bind]. apply (f_equal (@length _)) in G1, G2. rewrite !map_length in G1, G2. cbn [length] in G1, G2.
    rewrite !firstn_all2 in Fp by (unfold len in *; cbn [length] in *; lia). rewrite Fp. eexists. split; reflexivity.
Qed.

Lemma zero_buffers bm (l1 l2 : list T) g1 g2 : map tshape l1 = map tshape l2 -> Forall2 (fun g s => zeros bm g (tshape s)) g1 l1 ->
  Forall2 (fun g s => zeros bm g (tshape s)) g2 l2 -> g1 = g2.
Proof.
  intros E H. revert l2 g2 E. induction H as [|g s g1 l1 Z H IH]; intros [|s2 l2] g2 E H2; cbn [map] in E; try discriminate; inversion H2; subst; [reflexivity|].
  injection E as E1 E2. f_equal; [|eapply IH; eassumption]. rewrite E1 in Z. eapply holds_eq; [exact Z|eassumption|reflexivity].
Qed.

End Facts.

Section Resume.
Context {F : Type} {AR : Arith F} {BT : Bits F}.

Lemma switched_equal bm (n n' : network F) : relu_agrees F -> well_built bm n -> well_built bm n' -> layers n <> [] ->
  map params_of (layers n') = map params_of (layers n) -> map get_name (layers n') = map get_name (layers n) ->
  (exists t t', net_switch_to_training bm n = Done t /\ net_switch_to_training bm n' = Done t'
     /\ forall X, shaped X (net_input_shape n) -> exists m, infer bm t X = Done (m, Ok tt) /\ infer bm t' X = Done (m, Ok tt))
  /\ exists t t', net_switch_to_inference bm n = Done t /\ net_switch_to_inference bm n' = Done t'
     /\ forall X, shaped X (net_input_shape n) -> exists m, infer bm t X = Done (m, Ok tt) /\ infer bm t' X = Done (m, Ok tt).
Proof.
  intros RA B B' NE P N. pose proof (built_ok bm n RA B) as Kn. pose proof (built_ok bm n' RA B') as Kn'.
  assert (Sh : map tshape (intermediate_states n) = map tshape (intermediate_states n')).
  { destruct Kn as ((_ & _ & _ & E) & _), Kn' as ((_ & _ & _ & E') & _). rewrite E, E'. apply boundaries_params. symmetry. exact P. }
  split.
  - destruct (net_switch_training bm n RA B) as (t & E & Pt & _ & _ & St & G). destruct (net_switch_training bm n' RA B') as (t' & E' & _ & _ & _ & St' & G').
    exists t, t'. split; [exact E|]. split; [exact E'|]. intros X HX.
    assert (Lt : layers t = layers t') by (eapply net_switch_same; [symmetry; exact P|symmetry; exact N|eassumption|eassumption]).
    assert (Ot : net_ok t) by (apply (good_step bm n OTrain t (Ok tt) RA); [exact Kn|exact I|cbn [run_op]; rewrite E; reflexivity]).
    assert (Ot' : net_ok t') by (apply (good_step bm n' OTrain t' (Ok tt) RA); [exact Kn'|exact I|cbn [run_op]; rewrite E'; reflexivity]).
    assert (Si : net_input_shape t = net_input_shape n /\ net_run_state t = Training).
    { unfold net_switch_to_training in E. apply bind_done in E. destruct E as (? & _ & E). apply bind_done in E. destruct E as (? & _ & [= <-]). auto. }
    assert (Rs : net_run_state t' = Training).
    { unfold net_switch_to_training in E'. apply bind_done in E'. destruct E' as (? & _ & E'). apply bind_done in E'. destruct E' as (? & _ & [= <-]). reflexivity. }
    destruct Si as (Si & Rt). apply infer_equal; try assumption; [|congruence| |rewrite Si; exact HX].
    + exact (zero_buffers bm _ _ _ _ Sh G G').
    + intros Z. apply NE. rewrite Z in Pt. destruct (layers n); [reflexivity|discriminate Pt].
  - destruct (net_switch_inference bm n RA B) as (t & E & Pt & _ & _ & St & G). destruct (net_switch_inference bm n' RA B') as (t' & E' & _ & _ & _ & St' & G').
    exists t, t'. split; [exact E|]. split; [exact E'|]. intros X HX.
    assert (Ot : net_ok t) by (apply (good_step bm n OInference t (Ok tt) RA); [exact Kn|exact I|cbn [run_op]; rewrite E; reflexivity]).
    assert (Ot' : net_ok t') by (apply (good_step bm n' OInference t' (Ok tt) RA); [exact Kn'|exact I|cbn [run_op]; rewrite E'; reflexivity]).
    unfold net_switch_to_inference, map_layers in E, E'. pose proof (map_layers_same bm Inference _ _ [] P N) as Q. cbn [switch_to] in Q.
    rewrite Q in E'. apply bind_done in E. destruct E as (ls & El & [= <-]). rewrite El in E'. cbn [bind] in E'. injection E' as <-.
    apply infer_equal; try assumption; try reflexivity.
    cbn [layers] in *. intros Z. apply NE. rewrite Z in Pt. destruct (layers n); [reflexivity|discriminate Pt].
Qed.

End Resume.

Lemma resume e bm h st (n : network f32) fs name :
  let AR := f32_arith e in
  well_built bm n -> Forall storable (layers n) -> valid_order h -> len (to_byte_array h (new_from_network n)) < W64 -> layers n <> [] ->
  exists n', network_load bm (network_new st) (fst (network_save h n fs name WriteOk)) name = Done (n', Ok tt)
    /\ (exists t t', net_switch_to_training bm n = Done t /\ net_switch_to_training bm n' = Done t'
          /\ forall X, shaped X (net_input_shape n) -> exists m, infer bm t X = Done (m, Ok tt) /\ infer bm t' X = Done (m, Ok tt))
    /\ exists t t', net_switch_to_inference bm n = Done t /\ net_switch_to_inference bm n' = Done t'
          /\ forall X, shaped X (net_input_shape n) -> exists m, infer bm t X = Done (m, Ok tt) /\ infer bm t' X = Done (m, Ok tt).
Proof.
  intros AR B St V L NE. pose proof (built_ok bm n (f32_relu_agrees e) B) as Kn.
  destruct (network_round_trip f32_bits_ok bm h st n (fst (network_save h n fs name WriteOk)) name V (proj1 Kn) St L) as (n' & E & Kn' & R & M).
  { apply fs_set_same. }
  exists n'. split; [exact E|]. apply switched_equal; [exact (f32_relu_agrees e)|exact B| |exact NE| |].
  - apply (built_load bm (network_new st) (fst (network_save h n fs name WriteOk)) name n' (Ok tt)); [apply built_new|exact E|apply Kn'].
  - apply (f_equal (map (fun x => fst (fst x)))) in M. rewrite !map_map in M. exact M.
  - apply (f_equal (map (fun x => snd (fst x)))) in M. rewrite !map_map in M. exact M.
Qed.
