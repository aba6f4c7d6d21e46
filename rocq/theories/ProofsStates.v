(** * C60, C62: what the intermediate states hold after inference *)
From Coq Require Import ZifyBool ZifyNat ZifyN.
From Verif Require Import Base Arith Helper Tensor Convolution Network Bincode Serial Float32 Float32Facts Spec SpecLayer SpecNet.
From Verif Require Import Loops TensorFacts OpsFacts ProofsTensor ProofsFloat Layout LayerFacts NetFacts NetRun NetBack ProofsNet ProofsChain.
Ltac Zify.zify_post_hook ::= Z.div_mod_to_equations.

Section Scalars.
Context {F : Type} {AR : Arith F} (RA : relu_agrees F).
Notation T := (tensor F).

Lemma any_trace bm n (X : T) : net_ok n -> layers n <> [] -> shaped X (net_input_shape n) ->
  exists n1, infer bm n X = Done (n1, Ok tt) /\ net_ok n1 /\ nth_error (intermediate_states n1) 0 = Some X
    /\ (forall i, (i < length (layers n))%nat -> step_at bm (layers n) (layers n1) (intermediate_states n1) i).
Proof.
  intros Ok NE SX. pose proof Ok as (St & Lo & Sw & Gw).
  destruct (infer_ok bm n X RA Ok NE (proj1 SX) (proj2 SX)) as (n1 & Y & E & Ok1 & _ & _ & _).
  exists n1. split; [exact E|]. split; [exact Ok1|]. unfold infer in E. unfold get_shape in E. rewrite (proj2 SX), shape_eqb_refl in E. cbn [negb] in E.
  pose proof (states_length n St) as Ls. destruct (N.ltb_spec (len (intermediate_states n)) 2) as [L|L]; [discriminate|].
  rewrite vset_done in E by lia. cbn [bind] in E. rewrite Nrange_upto in E. apply bind_done in E. destruct E as (((ls & st) & r) & E & H).
  injection H as <- ->. cbn [layers intermediate_states]. change (N.to_nat 0) with 0%nat in E.
  destruct (intermediate_states n) as [|s0 ss] eqn:Es; [unfold len in L; cbn in L; lia|]. cbn [list_set] in E.
  destruct St as (H1 & H2 & H3 & H4).
  destruct (infer_trace bm (layers n) (X :: ss) (net_input_shape n) (len (layers n)) H1) with (ls' := ls) (st' := st) as (_ & _ & Z & S & _).
  - rewrite Es in H4. cbn [map] in *. rewrite <- H4. f_equal. rewrite (proj2 SX), H2, <- H4. reflexivity.
  - constructor; [exact (proj1 SX)|]. inversion Sw; assumption.
  - lia.
  - exact E.
  - split; [exact Z|]. intros i Hi. apply S. unfold len. lia.
Qed.

(** State [i + 1] is what layer [i] makes of state [i]. *)
Lemma state_step bm n (X : T) : net_ok n -> layers n <> [] -> shaped X (net_input_shape n) ->
  exists n1, infer bm n X = Done (n1, Ok tt) /\ net_ok n1 /\ nth_error (intermediate_states n1) 0 = Some X
    /\ (forall i l, nth_error (layers n) i = Some l -> exists x y, nth_error (intermediate_states n1) i = Some x
          /\ nth_error (intermediate_states n1) (S i) = Some y /\ computes bm (params_of l) x y).
Proof.
  intros Ok NE SX. destruct (any_trace bm n X Ok NE SX) as (n1 & E & Ok1 & N0 & Tr). exists n1. do 3 (split; [assumption|]). intros i l Nl.
  destruct (Tr i (nth_error_Some_lt _ _ _ Nl)) as (l' & l1 & x & y0 & y & N1 & N2 & N3 & N4 & _ & Sy0 & Ef).
  rewrite Nl in N1. injection N1 as <-. exists x, y. do 2 (split; [assumption|]).
  pose proof Ok as ((Hl & Hi & _) & Lo & _). pose proof Ok1 as ((_ & _ & _ & H4) & _ & Sw & _).
  assert (B : boundaries (layers n1) = boundaries (layers n)).
  { apply boundaries_params. apply (infer_kept _ _ _ _ _) in E. destruct E as (I & _).
    apply (f_equal (map (fun x => fst (fst x)))) in I. rewrite !map_map in I. exact I. }
  rewrite B in H4. destruct (nth_boundaries (layers n) _ i l Hl) as (B1 & _); [|exact Nl|].
  { right. clear - Hl NE. destruct (layers n) as [|a ls]; [congruence|]. cbn [linked] in Hl. destruct Hl as (<- & _). reflexivity. }
  destruct (nth_shaped _ _ _ _ H4 Sw B1) as (x' & Nx & Sx). rewrite N3 in Nx. injection Nx as <-.
  destruct (forward_ok bm l x y0 RA (Forall_nth _ _ _ _ Lo Nl) Sx Sy0) as (l2 & Y & E' & C & _). rewrite Ef in E'. injection E' as <- <-. exact C.
Qed.

Lemma exposed_state (n : network F) i t : get_intermediate_state n i = Done (Ok t) <-> nth_error (intermediate_states n) (N.to_nat i) = Some t.
Proof.
  unfold get_intermediate_state. split; intros H.
  - destruct (_ <=? _); [discriminate H|]. apply bind_done in H. destruct H as (t' & V & E). injection E as ->. apply vget_done in V. apply V.
  - assert (L : i < len (intermediate_states n)). { unfold len. apply nth_error_Some_lt in H. lia. }
    destruct (N.leb_spec (len (intermediate_states n)) i); [lia|]. destruct (vget_some _ _ L) as (t' & N' & V). rewrite V. cbn [bind]. congruence.
Qed.

(** After inference every exposed state is the composition of the layers before it. *)
Lemma states_compose bm n (X : T) n' : net_ok n -> wf X -> infer bm n X = Done (n', Ok tt) ->
  forall i t, get_intermediate_state n' i = Done (Ok t) -> composes bm (firstn (N.to_nat i) (map params_of (layers n))) X t.
Proof.
  intros Ok W E. destruct (infer_exact bm n X RA Ok W) as (n2 & r & E2 & I & _). rewrite E in E2. injection E2 as <- <-.
  destruct (proj1 I eq_refl) as (SX & NE). destruct (state_step bm n X Ok NE (conj W SX)) as (n1 & E1 & Ok1 & N0 & Tr).
  rewrite E in E1. injection E1 as <-. intros i t G. apply exposed_state in G. revert t G.
  assert (Ln : (length (intermediate_states n') = S (length (layers n)))).
  { pose proof (states_length n' (proj1 Ok1)) as L. apply (infer_kept _ _ _ _ _) in E. destruct E as (Id & _).
    apply (f_equal (@length _)) in Id. rewrite !map_length in Id. destruct (layers n') as [|a ls] eqn:El.
    - destruct (layers n); [congruence|discriminate Id].
    - unfold len in L. cbn [length] in *. lia. }
  generalize (N.to_nat i). clear i. induction n0 as [|i IH]; intros t G.
  - rewrite N0 in G. injection G as <-. reflexivity.
  - assert (Hi : (i < length (layers n))%nat) by (apply nth_error_Some_lt in G; lia).
    destruct (nth_error (layers n) i) as [l|] eqn:Nl; [|apply nth_error_None in Nl; lia].
    destruct (Tr i l Nl) as (x & y & Nx & Ny & C). rewrite G in Ny. injection Ny as <-.
    assert (Np : nth_error (map params_of (layers n)) i = Some (params_of l)) by (rewrite nth_error_map, Nl; reflexivity).
    rewrite (firstn_snoc _ _ _ Np). eapply composes_snoc; [apply IH; exact Nx|exact C].
Qed.

(** Backward leaves the states alone. *)
Lemma backward_states bm (n : network F) g n' r i : net_backward bm n g = Done (n', r) -> get_intermediate_state n' i = get_intermediate_state n i.
Proof. intros E. apply net_backward_kept in E. destruct E as (_ & S & _). unfold get_intermediate_state. rewrite S. reflexivity. Qed.

End Scalars.

(** ** f32 *)
Section F32.
Context (e : env).
Let AR : Arith f32 := f32_arith e.
Local Existing Instance AR.
Notation T := (tensor f32).

Lemma holds_data bm (t : T) s f v : holds bm t s f -> In v (data t) -> exists i j k, in_shape s i j k /\ v = f i j k.
Proof.
  intros H Hv. apply holds_iff in H. destruct H as (_ & ->). cbn [data of_fun] in Hv. apply in_map_iff in Hv.
  destruct Hv as (((i & j) & k) & <- & Hc). exists i, j, k. split; [apply in_cells; exact Hc|reflexivity].
Qed.

Lemma running_max_num l : isnan (running_max l) = false.
Proof.
  unfold running_max. assert (G : forall m, isnan m = false -> isnan (fold_left (fun m x => if fgtb x m then x else m) l m) = false).
  { induction l as [|x l IH]; intros m Hm; cbn [fold_left]; [exact Hm|]. apply IH. cbn [fgtb AR f32_arith].
    destruct (f32_gtb x m) eqn:G; [apply gtb_true in G; apply G|exact Hm]. }
  apply G. reflexivity.
Qed.

Definition clean (p : params f32) (v : f32) : Prop :=
  match p with
  | PFC _ _ | PConv _ _ _ _ _ => isnan v = false /\ f32_gtb f32_zero v = false
  | PMaxPool _ _ _ _ => isnan v = false
  | PSoftmax _ => True
  end.

Lemma computes_clean bm p (X Y : T) : computes bm p X Y -> Forall (clean p) (data Y).
Proof.
  intros C. apply Forall_forall. intros v Hv. destruct C; cbn [clean]; [| | |exact I];
    match goal with H : holds _ _ _ _ |- _ => destruct (holds_data _ _ _ _ _ H Hv) as (i & j & k & _ & ->) end;
    try apply relu_value; apply running_max_num.
Qed.

Lemma states_clean bm n (X : T) n' : well_built bm n -> wf X -> infer bm n X = Done (n', Ok tt) ->
  forall i l t, nth_error (layers n) (N.to_nat i) = Some l -> get_intermediate_state n' (i + 1) = Done (Ok t) -> Forall (clean (params_of l)) (data t).
Proof.
  intros B W E i l t Nl G. pose proof (states_compose (f32_relu_agrees e) bm n X n' (built_ok bm n (f32_relu_agrees e) B) W E _ t G) as C.
  replace (N.to_nat (i + 1)) with (S (N.to_nat i)) in C by lia.
  assert (Np : nth_error (map params_of (layers n)) (N.to_nat i) = Some (params_of l)) by (rewrite nth_error_map, Nl; reflexivity).
  rewrite (firstn_snoc _ _ _ Np) in C. clear - AR C. revert C. generalize (firstn (N.to_nat i) (map params_of (layers n))). intros ps. revert X.
  induction ps as [|p ps IH]; intros X C; cbn [app composes] in C.
  - destruct C as (Z & C & <-). eapply computes_clean. exact C.
  - destruct C as (Z & _ & C). eapply IH. exact C.
Qed.

Lemma built_clean bm n (X : T) n' i l t v : well_built bm n -> wf X -> infer bm n X = Done (n', Ok tt) ->
  nth_error (layers n) (N.to_nat i) = Some l -> get_intermediate_state n' (i + 1) = Done (Ok t) -> In v (data t) ->
  match l with
  | LFC _ | LConv _ => isnan v = false /\ f32_gtb f32_zero v = false
  | LMaxPool _ => isnan v = false
  | LSoftmax _ => True
  end.
Proof.
  intros B W E Nl G Hv. pose proof (states_clean bm n X n' B W E i l t Nl G) as H. rewrite Forall_forall in H. specialize (H v Hv). destruct l; exact H.
Qed.

Lemma built_states bm n (X : T) n' : well_built bm n -> wf X -> infer bm n X = Done (n', Ok tt) ->
  forall i t, get_intermediate_state n' i = Done (Ok t) -> composes bm (firstn (N.to_nat i) (map params_of (layers n))) X t.
Proof. intros B. apply (states_compose (f32_relu_agrees e)). exact (built_ok bm n (f32_relu_agrees e) B). Qed.

End F32.
