(** * One forward and backward pass, layer by layer, any arithmetic *)
From Coq Require Import ZifyBool ZifyNat ZifyN.
From Verif Require Import Base Arith Helper Tensor Convolution Network Bincode Serial Spec SpecLayer SpecNet Loops TensorFacts OpsFacts.
From Verif Require Import ProofsTensor ProofsConv Layout LayerFacts BackFacts NetFacts NetRun NetBack ProofsChain.
Ltac Zify.zify_post_hook ::= Z.div_mod_to_equations.

Section Any.
Context {F : Type} {AR : Arith F}.
Notation T := (tensor F).

(** What the loop of [backward] does to layer [i] of [ls] and to gradient [i]. *)
Definition back_at (bm : build) (st : list T) (ls ls' : list (layer F)) (gr gr' : list T) (i : nat) : Prop :=
  exists l1 l2 x y g og0 og, nth_error ls i = Some l1 /\ nth_error ls' i = Some l2 /\ nth_error st i = Some x /\ nth_error st (S i) = Some y
    /\ nth_error gr' (S i) = Some g /\ nth_error gr i = Some og0 /\ nth_error gr' i = Some og /\ layout og = layout og0
    /\ backward bm l1 x y g og0 = Done (l2, og, Ok tt).

Lemma backward_trace bm st k : forall (ls : list (layer F)) gr ls' gr',
  tryM (rev (upto k)) (backward_step bm st) (ls, gr) = Done ((ls', gr'), Ok tt) ->
  (forall i, (N.to_nat k <= i)%nat -> nth_error gr' i = nth_error gr i)
  /\ (forall i, (N.to_nat k <= i)%nat -> nth_error ls' i = nth_error ls i)
  /\ forall i, (i < N.to_nat k)%nat -> back_at bm st ls ls' gr gr' i.
Proof.
  induction k as [|k IH] using N.peano_ind; intros ls gr ls' gr' E.
  - rewrite upto_0 in E. cbn in E. injection E as <- <-. split; [reflexivity|]. split; [reflexivity|lia].
  - rewrite rev_upto_succ in E. cbn [tryM] in E. apply bind_done in E. destruct E as (((ls1 & gr1) & r1) & E1 & E). destruct r1 as [[]|e]; [|discriminate].
    destruct (IH ls1 gr1 ls' gr' E) as (G1 & L1 & S1). replace (N.to_nat (N.succ k)) with (S (N.to_nat k)) by lia.
    unfold backward_step in E1. apply bind_done in E1. destruct E1 as (l & Vl & E1). apply bind_done in E1. destruct E1 as (g & Vg & E1).
    apply bind_done in E1. destruct E1 as (og0 & Vo & E1). apply bind_done in E1. destruct E1 as (x & Vx & E1). apply bind_done in E1. destruct E1 as (y & Vy & E1).
    apply bind_done in E1. destruct E1 as (((l2 & og) & r) & EB & E1). apply bind_done in E1. destruct E1 as (lsx & Sl & E1).
    apply bind_done in E1. destruct E1 as (grx & Sg & E1). injection E1 as -> -> ->.
    apply vget_done in Vl, Vx, Vy. destruct Vl as (Ll & Nl), Vx as (Lx & Nx), Vy as (Ly & Ny).
    apply get_or_unwrap_done in Vg, Vo. destruct Vg as (Ng & Lg), Vo as (No & Lo).
    rewrite vset_done in Sl by exact Ll. rewrite vset_done in Sg by exact Lo. injection Sl as <-. injection Sg as <-.
    replace (N.to_nat (k + 1)) with (S (N.to_nat k)) in * by lia.
    pose proof (backward_kept _ _ _ _ _ _ _ _ _ EB) as (LO & _).
    split; [intros i Hi; rewrite G1 by lia; apply nth_error_list_set_other; lia|].
    split; [intros i Hi; rewrite L1 by lia; apply nth_error_list_set_other; lia|].
    intros i Hi. destruct (Nat.eq_dec i (N.to_nat k)) as [->|Ne].
    + exists l, l2, x, y, g, og0, og. split; [exact Nl|]. split; [rewrite L1 by lia; apply nth_error_list_set_same; apply nth_error_Some_lt in Nl; exact Nl|].
      split; [exact Nx|]. split; [exact Ny|]. split; [rewrite G1 by lia; rewrite nth_error_list_set_other by lia; exact Ng|]. split; [exact No|].
      split; [rewrite G1 by lia; apply nth_error_list_set_same; apply nth_error_Some_lt in No; exact No|]. auto.
    + destruct (S1 i ltac:(lia)) as (a & b & c & d & e & f & h & H1 & H2 & H3 & H4 & H5 & H6 & H7). exists a, b, c, d, e, f, h.
      rewrite nth_error_list_set_other in H1 by lia. rewrite nth_error_list_set_other in H6 by lia. auto 10.
Qed.

(** Layer [i] of a network during one forward pass on [X] and one backward pass with [G]; [st] and [gr] are the values and the
    gradients at the layer boundaries. *)
Definition round_at (bm : build) (n n2 : network F) (st gr : list T) (i : nat) (l0 : layer F) : Prop :=
  exists l1 l2 x y0 y g og0 og, nth_error (layers n2) i = Some l2
    /\ nth_error st i = Some x /\ nth_error st (S i) = Some y /\ nth_error gr i = Some og /\ nth_error gr (S i) = Some g
    /\ shaped x (get_input_shape l0) /\ shaped y0 (get_output_shape l0) /\ shaped g (get_output_shape l0) /\ shaped og0 (get_input_shape l0)
    /\ forward bm l0 x y0 = Done (l1, y, Ok tt) /\ backward bm l1 x y g og0 = Done (l2, og, Ok tt).

Lemma round_trace_at bm (n : network F) (X G : T) : relu_agrees F ->
  net_ok n -> in_training n -> layers n <> [] -> Forall stays_inside (layers n) -> Forall backs (layers n) ->
  shaped X (net_input_shape n) -> shaped G (net_output_shape n) ->
  exists n1 n2, infer bm n X = Done (n1, Ok tt) /\ net_backward bm n1 G = Done (n2, Ok tt)
    /\ nth_error (intermediate_states n1) 0 = Some X /\ nth_error (intermediate_gradients n2) (length (layers n)) = Some G
    /\ map ident (layers n2) = map ident (layers n)
    /\ forall i l0, nth_error (layers n) i = Some l0 -> round_at bm n n2 (intermediate_states n1) (intermediate_gradients n2) i l0.
Proof.
  intros RA OKn Tr NE NC Bk SX SG. pose proof OKn as (St & Lo & Sw & Gw).
  destruct (infer_ok bm n X RA OKn NE (proj1 SX) (proj2 SX)) as (n1 & Y & E & Ok1 & _ & _ & _).
  pose proof (infer_kept _ _ _ _ _ E) as (I1 & KG & _ & KO & KR & KS).
  pose proof St as (H1 & H2 & H3 & H4). pose proof (KS H4 H2) as Es1.
  assert (P1 : map params_of (layers n1) = map params_of (layers n)) by apply (ident_split _ _ I1).
  assert (Tr1 : in_training n1).
  { destruct Tr as (R & M & B). split; [congruence|]. split; [eapply modes_ident; eassumption|]. rewrite KG, (ident_boundaries _ _ I1). exact B. }
  assert (NC1 : Forall stays_inside (layers n1)) by (eapply Forall_params; [|exact P1|exact NC]; intros; eapply back_params; eassumption).
  assert (Bk1 : Forall backs (layers n1)) by (eapply Forall_params; [|exact P1|exact Bk]; intros; eapply back_params; eassumption).
  assert (NE1 : layers n1 <> []) by (intros Q; rewrite Q in I1; symmetry in I1; apply map_eq_nil in I1; contradiction).
  destruct (net_backward_total bm n1 G Ok1 Tr1 NC1 (proj1 SG)) as (n2 & r & E2 & Hr).
  assert (r = Ok tt) as -> by (apply Hr; [exact NE1|rewrite KO; apply SG|exact Bk1]). clear Hr.
  exists n1, n2. split; [exact E|]. split; [exact E2|].
  pose proof (net_backward_kept _ _ _ _ _ E2) as (I2 & _).
  (* the forward loop *)
  pose proof E as E'. unfold infer in E'. unfold get_shape in E'. rewrite (proj2 SX), shape_eqb_refl in E'. cbn [negb] in E'.
  pose proof (states_length n St) as Ls. destruct (N.ltb_spec (len (intermediate_states n)) 2) as [L|L]; [discriminate|].
  rewrite vset_done in E' by lia. cbn [bind] in E'. rewrite Nrange_upto in E'. apply bind_done in E'. destruct E' as (((ls & st) & r) & E' & H).
  injection H as Hn1 ->. change (N.to_nat 0) with 0%nat in E'.
  destruct (intermediate_states n) as [|s0 ss] eqn:Es; [unfold len in L; cbn in L; lia|]. cbn [list_set] in E'.
  destruct (infer_trace bm (layers n) (X :: ss) (net_input_shape n) (len (layers n)) H1) with (ls' := ls) (st' := st) as (LS & _ & Z & S & _).
  { cbn [map] in *. rewrite <- H4. f_equal. rewrite (proj2 SX), H2, <- H4. reflexivity. }
  { constructor; [exact (proj1 SX)|]. inversion Sw; assumption. }
  { lia. }
  { exact E'. }
  assert (Ws1 : Forall wf (intermediate_states n1)) by apply Ok1.
  assert (Ss1 : map tshape (intermediate_states n1) = boundaries (layers n)) by congruence.
  assert (Sg1 : map tshape (intermediate_gradients n1) = boundaries (layers n)) by (rewrite <- (ident_boundaries _ _ I1); apply Tr1).
  assert (Wg1 : Forall wf (intermediate_gradients n1)) by apply Ok1.
  subst n1. cbn [layers intermediate_states intermediate_gradients net_output_shape net_run_state] in *. clear LS.
  split; [exact Z|].
  (* the backward loop *)
  pose proof E2 as E2'. unfold net_backward in E2'. cbn [layers intermediate_states intermediate_gradients net_output_shape net_run_state] in E2'.
  unfold get_shape in E2'. rewrite (proj2 SG), shape_eqb_refl in E2'. cbn [negb] in E2'.
  assert (Ll : length ls = length (layers n)) by (rewrite <- (map_length ident ls), I1, map_length; reflexivity).
  assert (Lp : (0 < length ls)%nat) by (destruct ls; [contradiction|cbn; lia]).
  destruct (N.ltb_spec (len ls) 1) as [Q|Q]; [discriminate|].
  replace (net_run_state n) with Training in E2' by (symmetry; apply Tr). cbn [run_state_eqb negb] in E2'.
  apply bind_done in E2'. destruct E2' as (gr0 & V & E2'). apply bind_done in E2'. destruct E2' as (((ls2 & gr) & r) & EB & H).
  injection H as Hn2 ->. rewrite Nrange_upto in EB. unfold vset in V.
  destruct (N.ltb_spec (len ls) (len (intermediate_gradients n))) as [Lg|]; [|discriminate]. injection V as <-.
  destruct (backward_trace _ _ _ _ _ _ _ EB) as (G1 & _ & Bt).
  subst n2. cbn [layers intermediate_gradients] in *.
  replace (N.to_nat (len ls)) with (length ls) in * by (unfold len; lia).
  assert (NG : nth_error gr (length (layers n)) = Some G).
  { rewrite G1 by lia. rewrite <- Ll. apply nth_error_list_set_same. unfold len in Lg. lia. }
  split; [exact NG|]. split; [congruence|].
  intros i l0 Nl. pose proof (nth_error_Some_lt _ _ _ Nl) as Hi.
  destruct (S i ltac:(unfold len; lia)) as (l & l1 & x & y0 & y & N1 & N2 & N3 & N4 & _ & Sy0 & EF). rewrite Nl in N1. injection N1 as <-.
  destruct (Bt i ltac:(lia)) as (l1' & l2 & x' & y' & g & og0 & og & B1 & B2 & B3 & B4 & B5 & B6 & B7 & B8 & B9).
  rewrite N2 in B1. injection B1 as <-. rewrite N3 in B3. injection B3 as <-. rewrite N4 in B4. injection B4 as <-.
  destruct (nth_boundaries (layers n) (net_input_shape n) i l0 H1) as (C1 & C2); [|exact Nl|].
  { clear - H1. destruct (layers n) as [|a ls']; [left; reflexivity|right]. cbn [linked] in H1. destruct H1 as (<- & _). reflexivity. }
  destruct (nth_shaped st (layers n) _ _ Ss1 Ws1 C1) as (x' & Nx & Sx). rewrite N3 in Nx. injection Nx as <-.
  assert (Sg0 : map tshape (list_set (intermediate_gradients n) (length ls) G) = boundaries (layers n)).
  { destruct (nth_error (intermediate_gradients n) (length ls)) as [gl|] eqn:Ngl; [|apply nth_error_None in Ngl; unfold len in Lg; lia].
    rewrite (map_list_set tshape _ _ G gl Ngl); [exact Sg1|]. rewrite (proj2 SG), H3.
    pose proof (map_nth_error tshape _ _ Ngl) as Q2. rewrite Sg1 in Q2. pose proof (last_boundary (layers n) (mkShape 0 0 0) NE) as Q3.
    replace (N.to_nat (len (layers n))) with (length ls) in Q3 by (unfold len; lia). congruence. }
  assert (Wg0 : Forall wf (list_set (intermediate_gradients n) (length ls) G)) by (apply Forall_list_set; [exact Wg1|apply SG]).
  pose proof (backward_loop_kept _ _ _ _ _ _ _ _ EB) as (_ & Lgr).
  destruct (nth_shaped _ (layers n) _ _ Sg0 Wg0 C1) as (og0' & No & So). rewrite B6 in No. injection No as <-.
  destruct (nth_shaped gr (layers n) _ _ ltac:(rewrite (layout_shapes _ _ Lgr); exact Sg0) (Forall_wf_layout _ _ Lgr Wg0) C2) as (g' & Ng & Sg). rewrite B5 in Ng. injection Ng as <-.
  exists l1, l2, x, y0, y, g, og0, og. auto 15.
Qed.

Lemma round_trace bm (n : network F) (X G : T) : relu_agrees F ->
  net_ok n -> in_training n -> layers n <> [] -> Forall stays_inside (layers n) -> Forall backs (layers n) ->
  shaped X (net_input_shape n) -> shaped G (net_output_shape n) ->
  exists n1 n2 st gr, infer bm n X = Done (n1, Ok tt) /\ net_backward bm n1 G = Done (n2, Ok tt)
    /\ nth_error st 0 = Some X /\ nth_error gr (length (layers n)) = Some G
    /\ map ident (layers n2) = map ident (layers n)
    /\ forall i l0, nth_error (layers n) i = Some l0 -> round_at bm n n2 st gr i l0.
Proof.
  intros RA OKn Tr NE NC Bk SX SG. destruct (round_trace_at bm n X G RA OKn Tr NE NC Bk SX SG) as (n1 & n2 & H).
  exists n1, n2, (intermediate_states n1), (intermediate_gradients n2). exact H.
Qed.

End Any.
