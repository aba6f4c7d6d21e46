(** * Proofs for C105 *)
From Coq Require Import ZifyBool ZifyNat ZifyN.
From Verif Require Import Base Arith Helper Tensor Network Bincode Serial Spec SpecLayer SpecNet SpecPlatform SpecPieces Loops TensorFacts OpsFacts.
From Verif Require Import ProofsTensor ProofsConv Layout LayerFacts BackFacts NetFacts NetRun.
Ltac Zify.zify_post_hook ::= Z.div_mod_to_equations.

(** ** Vectors put together *)
Section Lists.
Context {A : Type}.
Implicit Types l r : list A.

Lemma vget_left l r i : i < len l -> vget (l ++ r) i = vget l i.
Proof.
  intros H. unfold vget, len in *. rewrite app_length. destruct (N.ltb_spec i (N.of_nat (length l))); [|lia].
  destruct (N.ltb_spec i (N.of_nat (length l + length r))); [|lia]. rewrite nth_error_app1 by lia. reflexivity.
Qed.
Lemma vget_right l r i : vget (l ++ r) (len l + i) = vget r i.
Proof.
  unfold vget, len. rewrite app_length. rewrite nth_error_app2 by lia. replace (N.to_nat (N.of_nat (length l) + i) - length l)%nat with (N.to_nat i) by lia.
  destruct (N.ltb_spec i (N.of_nat (length r))); destruct (N.ltb_spec (N.of_nat (length l) + i) (N.of_nat (length l + length r))); try lia; reflexivity.
Qed.
Lemma list_set_left l r i x : (i < length l)%nat -> list_set (l ++ r) i x = (list_set l i x ++ r)%list.
Proof. revert i. induction l as [|a l IH]; intros [|i] H; cbn in *; try lia; [reflexivity|]. f_equal. apply IH. lia. Qed.
Lemma list_set_right l r i x : list_set (l ++ r) (length l + i) x = (l ++ list_set r i x)%list.
Proof. induction l as [|a l IH]; [reflexivity|]. cbn. f_equal. exact IH. Qed.
Lemma vset_left l r i x : i < len l -> vset (l ++ r) i x = (l' <- vset l i x ;; Done (l' ++ r)%list).
Proof.
  intros H. unfold vset, len in *. rewrite app_length. destruct (N.ltb_spec i (N.of_nat (length l))); [|lia].
  destruct (N.ltb_spec i (N.of_nat (length l + length r))); [|lia]. cbn [bind]. rewrite list_set_left by lia. reflexivity.
Qed.
Lemma vset_right l r i x : vset (l ++ r) (len l + i) x = (r' <- vset r i x ;; Done (l ++ r')%list).
Proof.
  unfold vset, len. rewrite app_length. replace (N.to_nat (N.of_nat (length l) + i)) with (length l + N.to_nat i)%nat by lia. rewrite list_set_right.
  destruct (N.ltb_spec i (N.of_nat (length r))); destruct (N.ltb_spec (N.of_nat (length l) + i) (N.of_nat (length l + length r))); try lia; reflexivity.
Qed.
Lemma gou_left l r i : i < len l -> get_or_unwrap (l ++ r) i = get_or_unwrap l i.
Proof. intros H. unfold get_or_unwrap. rewrite vget_left by exact H. reflexivity. Qed.
Lemma gou_right l r i : get_or_unwrap (l ++ r) (len l + i) = get_or_unwrap r i.
Proof. unfold get_or_unwrap. rewrite vget_right. reflexivity. Qed.
End Lists.

Lemma upto_add a b : upto (a + b) = (upto a ++ map (fun i => a + i)%N (upto b))%list.
Proof.
  induction b as [|b IH] using N.peano_ind; [rewrite N.add_0_r, upto_0, app_nil_r; reflexivity|].
  rewrite N.add_succ_r, !upto_succ, IH, map_app, app_assoc. reflexivity.
Qed.

Lemma tryM_through {A B S S'} (h : A -> B) (w : S -> S') (inv : S -> Prop) f f' is :
  (forall i s, In i is -> inv s -> f' (h i) (w s) = ('(s1, r) <- f i s ;; Done (w s1, r))) ->
  (forall i s s1 r, inv s -> f i s = Done (s1, r) -> inv s1) ->
  forall s, inv s -> tryM (map h is) f' (w s) = ('(s1, r) <- tryM is f s ;; Done (w s1, r)).
Proof.
  induction is as [|i is IH]; intros H K s I; cbn [map tryM bind]; [reflexivity|]. rewrite H by (cbn; auto).
  destruct (f i s) as [(s1 & r)|p] eqn:E; cbn [bind]; [|reflexivity]. destruct r as [[]|e]; [|reflexivity].
  apply IH; [intros j t Hj; apply H; cbn; auto|exact K|eapply K; eassumption].
Qed.

(** ** The loops over the layers *)
Section Any.
Context {F : Type} {AR : Arith F}.
Notation T := (tensor F).

Lemma infer_left bm (LB : list (layer F)) (SB : list T) i LA SA : i < len LA -> len SA = len LA + 1 ->
  infer_step bm i ((LA ++ LB)%list, (SA ++ SB)%list) = ('((l, s), r) <- infer_step bm i (LA, SA) ;; Done (((l ++ LB)%list, (s ++ SB)%list), r)).
Proof.
  intros Hi Hs. unfold infer_step. rewrite vget_left by exact Hi. destruct (vget LA i); cbn [bind]; [|reflexivity].
  rewrite !gou_left by lia. destruct (get_or_unwrap SA i); cbn [bind]; [|reflexivity]. destruct (get_or_unwrap SA (i + 1)); cbn [bind]; [|reflexivity].
  destruct (forward _ _ _ _) as [((l1 & o1) & r1)|]; cbn [bind]; [|reflexivity]. rewrite vset_left by exact Hi. destruct (vset LA i l1); cbn [bind]; [|reflexivity].
  rewrite vset_left by lia. destruct (vset SA (i + 1) o1); reflexivity.
Qed.
Lemma infer_right bm (LA : list (layer F)) (SA : list T) i LB SB : len SA = len LA ->
  infer_step bm (len LA + i) ((LA ++ LB)%list, (SA ++ SB)%list) = ('((l, s), r) <- infer_step bm i (LB, SB) ;; Done (((LA ++ l)%list, (SA ++ s)%list), r)).
Proof.
  intros Hs. unfold infer_step. rewrite vget_right. destruct (vget LB i); cbn [bind]; [|reflexivity]. rewrite <- Hs, <- N.add_assoc.
  rewrite !gou_right. destruct (get_or_unwrap SB i); cbn [bind]; [|reflexivity]. destruct (get_or_unwrap SB (i + 1)); cbn [bind]; [|reflexivity].
  destruct (forward _ _ _ _) as [((l1 & o1) & r1)|]; cbn [bind]; [|reflexivity]. rewrite Hs, vset_right, <- Hs. destruct (vset LB i l1); cbn [bind]; [|reflexivity].
  rewrite vset_right. destruct (vset SB (i + 1) o1); reflexivity.
Qed.
Lemma back_left bm (LB : list (layer F)) (SA SB GB : list T) i LA GA : i < len LA -> len SA = len LA + 1 -> len GA = len LA + 1 ->
  backward_step bm (SA ++ SB) i ((LA ++ LB)%list, (GA ++ GB)%list)
  = ('((l, s), r) <- backward_step bm SA i (LA, GA) ;; Done (((l ++ LB)%list, (s ++ GB)%list), r)).
Proof.
  intros Hi Hs Hg. unfold backward_step. rewrite vget_left by exact Hi. destruct (vget LA i); cbn [bind]; [|reflexivity].
  rewrite !gou_left by lia. destruct (get_or_unwrap GA (i + 1)); cbn [bind]; [|reflexivity]. destruct (get_or_unwrap GA i); cbn [bind]; [|reflexivity].
  rewrite !vget_left by lia. destruct (vget SA i); cbn [bind]; [|reflexivity]. destruct (vget SA (i + 1)); cbn [bind]; [|reflexivity].
  destruct (backward _ _ _ _ _ _) as [((l1 & o1) & r1)|]; cbn [bind]; [|reflexivity]. rewrite vset_left by exact Hi. destruct (vset LA i l1); cbn [bind]; [|reflexivity].
  rewrite vset_left by lia. destruct (vset GA i o1); reflexivity.
Qed.
Lemma back_right bm (LA : list (layer F)) (SA SB GA : list T) i LB GB : len SA = len LA -> len GA = len LA ->
  backward_step bm (SA ++ SB) (len LA + i) ((LA ++ LB)%list, (GA ++ GB)%list)
  = ('((l, s), r) <- backward_step bm SB i (LB, GB) ;; Done (((LA ++ l)%list, (GA ++ s)%list), r)).
Proof.
  intros Hs Hg. unfold backward_step. rewrite vget_right. destruct (vget LB i); cbn [bind]; [|reflexivity]. rewrite <- N.add_assoc.
  assert (G : forall j, get_or_unwrap (GA ++ GB) (len LA + j) = get_or_unwrap GB j) by (intros j; rewrite <- Hg; apply gou_right).
  assert (V : forall j, vget (SA ++ SB) (len LA + j) = vget SB j) by (intros j; rewrite <- Hs; apply vget_right).
  rewrite !G. destruct (get_or_unwrap GB (i + 1)); cbn [bind]; [|reflexivity]. destruct (get_or_unwrap GB i); cbn [bind]; [|reflexivity].
  rewrite !V. destruct (vget SB i); cbn [bind]; [|reflexivity]. destruct (vget SB (i + 1)); cbn [bind]; [|reflexivity].
  destruct (backward _ _ _ _ _ _) as [((l1 & o1) & r1)|]; cbn [bind]; [|reflexivity]. rewrite vset_right. destruct (vset LB i l1); cbn [bind]; [|reflexivity].
  rewrite <- Hg, vset_right. destruct (vset GB i o1); reflexivity.
Qed.

Lemma vset_len {A} (l l' : list A) i x : vset l i x = Done l' -> len l' = len l.
Proof. unfold vset. destruct (i <? len l); intros [= <-]. unfold len. rewrite length_list_set. reflexivity. Qed.
Lemma infer_step_len bm i (s s1 : list (layer F) * list T) r : infer_step bm i s = Done (s1, r) -> len (fst s1) = len (fst s) /\ len (snd s1) = len (snd s).
Proof.
  destruct s as (ls & st), s1 as (ls1 & st1). intros E. apply infer_step_kept in E. destruct E as (E1 & E2). cbn [fst snd]. unfold len.
  rewrite <- (map_length ident ls1), <- (map_length layout st1), E1, E2, !map_length. auto.
Qed.
Lemma back_step_len bm st0 i (s s1 : list (layer F) * list T) r : backward_step bm st0 i s = Done (s1, r) -> len (fst s1) = len (fst s) /\ len (snd s1) = len (snd s).
Proof.
  destruct s as (ls & st), s1 as (ls1 & st1). intros E. apply backward_step_kept in E. destruct E as (E1 & E2). cbn [fst snd]. unfold len.
  rewrite <- (map_length ident ls1), <- (map_length layout st1), E1, E2, !map_length. auto.
Qed.

Lemma infer_loop_left bm (LB : list (layer F)) (SB : list T) LA SA : len SA = len LA + 1 ->
  tryM (upto (len LA)) (infer_step bm) ((LA ++ LB)%list, (SA ++ SB)%list)
  = ('((l, s), r) <- tryM (upto (len LA)) (infer_step bm) (LA, SA) ;; Done (((l ++ LB)%list, (s ++ SB)%list), r)).
Proof.
  intros H. set (w := fun s : list (layer F) * list T => ((fst s ++ LB)%list, (snd s ++ SB)%list)).
  pose proof (tryM_through (fun i : N => i) w (fun s => len (fst s) = len LA /\ len (snd s) = len LA + 1) (infer_step bm) (infer_step bm) (upto (len LA))) as Q.
  rewrite map_id in Q. change ((LA ++ LB)%list, (SA ++ SB)%list) with (w (LA, SA)). rewrite Q; [| | |cbn [fst snd]; auto].
  - destruct (tryM _ _ _) as [((l & s) & r)|]; reflexivity.
  - intros i (l & s) Hi (H1 & H2). cbn [fst snd] in *. apply in_upto in Hi. subst w. cbn [fst snd]. rewrite infer_left by lia.
    destruct (infer_step bm i (l, s)) as [((l1 & s1) & r)|]; reflexivity.
  - intros i s s1 r (H1 & H2) E. apply infer_step_len in E. destruct E. split; congruence.
Qed.
Lemma infer_loop_right bm (LA : list (layer F)) (SA : list T) LB SB : len SA = len LA -> forall k,
  tryM (map (fun i => len LA + i)%N (upto k)) (infer_step bm) ((LA ++ LB)%list, (SA ++ SB)%list)
  = ('((l, s), r) <- tryM (upto k) (infer_step bm) (LB, SB) ;; Done (((LA ++ l)%list, (SA ++ s)%list), r)).
Proof.
  intros H k. set (w := fun s : list (layer F) * list T => ((LA ++ fst s)%list, (SA ++ snd s)%list)).
  change ((LA ++ LB)%list, (SA ++ SB)%list) with (w (LB, SB)).
  rewrite (tryM_through (fun i => len LA + i)%N w (fun _ => True) (infer_step bm) (infer_step bm)); [| |trivial|trivial].
  - destruct (tryM _ _ _) as [((l & s) & r)|]; reflexivity.
  - intros i (l & s) Hi _. subst w. cbn [fst snd]. rewrite infer_right by lia. destruct (infer_step bm i (l, s)) as [((l1 & s1) & r)|]; reflexivity.
Qed.
Lemma back_loop_left bm (LB : list (layer F)) (SA SB GB : list T) LA GA : len SA = len LA + 1 -> len GA = len LA + 1 ->
  tryM (rev (upto (len LA))) (backward_step bm (SA ++ SB)) ((LA ++ LB)%list, (GA ++ GB)%list)
  = ('((l, s), r) <- tryM (rev (upto (len LA))) (backward_step bm SA) (LA, GA) ;; Done (((l ++ LB)%list, (s ++ GB)%list), r)).
Proof.
  intros H HG. set (w := fun s : list (layer F) * list T => ((fst s ++ LB)%list, (snd s ++ GB)%list)).
  pose proof (tryM_through (fun i : N => i) w (fun s => len (fst s) = len LA /\ len (snd s) = len LA + 1) (backward_step bm SA) (backward_step bm (SA ++ SB))
    (rev (upto (len LA)))) as Q.
  rewrite map_id in Q. change ((LA ++ LB)%list, (GA ++ GB)%list) with (w (LA, GA)). rewrite Q; [| | |cbn [fst snd]; auto].
  - destruct (tryM _ _ _) as [((l & s) & r)|]; reflexivity.
  - intros i (l & s) Hi (H1 & H2). cbn [fst snd] in *. apply in_rev, in_upto in Hi. subst w. cbn [fst snd]. rewrite back_left by lia.
    destruct (backward_step bm SA i (l, s)) as [((l1 & s1) & r)|]; reflexivity.
  - intros i s s1 r (H1 & H2) E. apply back_step_len in E. destruct E. split; congruence.
Qed.
Lemma back_loop_right bm (LA : list (layer F)) (SA SB GA : list T) LB GB : len SA = len LA -> len GA = len LA -> forall k,
  tryM (map (fun i => len LA + i)%N (rev (upto k))) (backward_step bm (SA ++ SB)) ((LA ++ LB)%list, (GA ++ GB)%list)
  = ('((l, s), r) <- tryM (rev (upto k)) (backward_step bm SB) (LB, GB) ;; Done (((LA ++ l)%list, (GA ++ s)%list), r)).
Proof.
  intros H HG k. set (w := fun s : list (layer F) * list T => ((LA ++ fst s)%list, (GA ++ snd s)%list)).
  change ((LA ++ LB)%list, (GA ++ GB)%list) with (w (LB, GB)).
  rewrite (tryM_through (fun i => len LA + i)%N w (fun _ => True) (backward_step bm SB) (backward_step bm (SA ++ SB))); [| |trivial|trivial].
  - destruct (tryM _ _ _) as [((l & s) & r)|]; reflexivity.
  - intros i (l & s) Hi _. subst w. cbn [fst snd]. rewrite back_right by lia. destruct (backward_step bm SB i (l, s)) as [((l1 & s1) & r)|]; reflexivity.
Qed.

(** ** Two pieces *)
Definition pieces_grads (st : run_state) (la lb : nat) (m : shape) (G GA GB : list T) : Prop :=
  (GA = [] /\ G = GB /\ (length GB <= lb)%nat)
  \/ st = Training /\ exists GA' d0 d GB', GA = (GA' ++ [d0])%list /\ GB = d :: GB' /\ G = (GA' ++ d :: GB')%list /\ length GA' = la /\ length GB' = lb /\ tshape d = m.

Inductive pieces : network F -> network F -> network F -> Prop :=
| pieces_intro LA LB SA y SB G GA GB i m o st :
    net_ok (mkNet LA (SA ++ [y]) GA i m st) -> net_ok (mkNet LB (y :: SB) GB m o st) -> LA <> [] -> LB <> [] ->
    length SA = length LA -> length SB = length LB -> pieces_grads st (length LA) (length LB) m G GA GB ->
    pieces (mkNet (LA ++ LB) (SA ++ y :: SB) G i o st) (mkNet LA (SA ++ [y]) GA i m st) (mkNet LB (y :: SB) GB m o st).

Lemma cons_app_assoc {A} (l r : list A) y : (l ++ y :: r)%list = ((l ++ [y]) ++ r)%list.
Proof. rewrite <- app_assoc. reflexivity. Qed.

Lemma pieces_two (n a b : network F) : pieces n a b -> two_pieces n a b.
Proof.
  intros [LA LB SA y SB G GA GB i m o st Na Nb ea eb la lb PG]. unfold two_pieces. cbn [layers intermediate_states intermediate_gradients net_input_shape net_output_shape].
  split; [reflexivity|]. split; [cbn [tl]; rewrite cons_app_assoc; reflexivity|]. split.
  { destruct PG as [(-> & -> & _)|(Ht & GA' & d0 & d & GB' & -> & -> & -> & _)]; [reflexivity|]. rewrite removelast_last. reflexivity. }
  do 5 (split; [reflexivity|]). unfold get_output. cbn [intermediate_states]. destruct SB as [|s SB]; [destruct LB; [congruence|discriminate]|].
  destruct (N.ltb_spec (len (SA ++ y :: s :: SB)) 2) as [Q|_]; [unfold len in Q; rewrite app_length in Q; cbn [length] in Q; lia|].
  destruct (N.ltb_spec (len (y :: s :: SB)) 2) as [Q|_]; [unfold len in Q; cbn [length] in Q; lia|].
  rewrite rev_app_distr. cbn [rev]. destruct (rev SB ++ [s])%list as [|t l] eqn:E; [destruct (rev SB); discriminate|]. reflexivity.
Qed.

Lemma infer_inv bm (n n' : network F) (X : T) : infer bm n X = Done (n', Ok tt) ->
  shape_eqb (get_shape X) (net_input_shape n) = true /\ len (intermediate_states n) <? 2 = false
  /\ exists st0 ls st, vset (intermediate_states n) 0 X = Done st0 /\ tryM (upto (len (layers n))) (infer_step bm) (layers n, st0) = Done ((ls, st), Ok tt)
    /\ n' = mkNet ls st (intermediate_gradients n) (net_input_shape n) (net_output_shape n) (net_run_state n).
Proof.
  unfold infer. destruct (shape_eqb _ _); [|discriminate]. cbn [negb]. destruct (_ <? 2); [discriminate|]. intros H.
  apply bind_done in H. destruct H as (st0 & V & H). apply bind_done in H. destruct H as (((ls & st) & r) & E & H). injection H as <- ->. rewrite Nrange_upto in E.
  split; [reflexivity|]. split; [reflexivity|]. exists st0, ls, st. auto.
Qed.

Lemma infer_loop_head bm is (ls ls' : list (layer F)) y st st' r : tryM is (infer_step bm) (ls, y :: st) = Done ((ls', st'), r) -> exists st1, st' = y :: st1.
Proof.
  intros E. refine (tryM_done_inv (fun s => exists st1, snd s = y :: st1) _ _ _ _ _ _ _ E); [cbn; eauto|].
  intros i (l & s) (l' & s') r0 _ (st1 & Q) H. cbn [snd] in *. subst s. unfold infer_step in H.
  apply bind_done in H. destruct H as (l0 & _ & H). apply bind_done in H. destruct H as (x & _ & H). apply bind_done in H. destruct H as (o & _ & H).
  apply bind_done in H. destruct H as (((l1 & o1) & r1) & _ & H). apply bind_done in H. destruct H as (l2 & _ & H). apply bind_done in H. destruct H as (s2 & V & H).
  injection H as _ <- _. unfold vset in V. destruct (_ <? _); [|discriminate]. injection V as <-.
  replace (N.to_nat (i + 1)) with (S (N.to_nat i)) by lia. cbn [list_set]. eauto.
Qed.

Lemma len_of {A} (l : list A) k : length l = k -> len l = N.of_nat k.
Proof. intros <-. reflexivity. Qed.

Lemma pieces_infer bm (n a b : network F) (X : T) : relu_agrees F -> pieces n a b -> wf X -> tshape X = net_input_shape n ->
  exists n1 a1 b1 Y, infer bm n X = Done (n1, Ok tt) /\ infer bm a X = Done (a1, Ok tt) /\ get_output a1 = Done (Ok Y) /\ infer bm b Y = Done (b1, Ok tt)
    /\ pieces n1 a1 b1.
Proof.
  intros RA [LA LB SA y SB G GA GB i m o st Na Nb ea eb la lb PG] WX SX. cbn [net_input_shape] in SX.
  destruct (infer_ok bm _ X RA Na ea WX SX) as (a1 & Y & Ea & Oa & Ia & Ya & _).
  assert (SY : wf Y /\ tshape Y = m).
  { pose proof Oa as (Sa & _ & Wa & _). pose proof (infer_kept _ _ _ _ _ Ea) as (_ & _ & _ & Em & _). cbn [net_output_shape] in Em. rewrite <- Em.
    unfold get_output in Ya. destruct (_ <? 2); [discriminate|]. destruct (rev (intermediate_states a1)) as [|t ts] eqn:Er; [discriminate|]. injection Ya as ->.
    apply rev_cons_last in Er. destruct Sa as (_ & _ & So & Ss). rewrite Er in *. split; [apply Forall_app in Wa; destruct Wa as (_ & Wa); inversion Wa; assumption|].
    rewrite So, <- Ss, map_app. cbn [map]. rewrite last_last. reflexivity. }
  destruct SY as (WY & SY).
  destruct (infer_ok bm _ Y RA Nb eb WY SY) as (b1 & Z & Eb & Ob & Ib & _ & _).
  pose proof (infer_inv _ _ _ _ Ea) as (Xa & La & sa0 & LA1 & SA1 & Va & Ta & ->). pose proof (infer_inv _ _ _ _ Eb) as (_ & Lb & sb0 & LB1 & SB1 & Vb & Tb & ->).
  cbn [layers intermediate_states intermediate_gradients net_input_shape net_output_shape net_run_state] in *.
  assert (sb0 = Y :: SB) as -> by (unfold vset in Vb; cbn in Vb; injection Vb as <-; reflexivity). clear Vb.
  destruct (infer_loop_head _ _ _ _ _ _ _ _ Tb) as (SB1' & ->).
  assert (exists SA1', SA1 = (SA1' ++ [Y])%list) as (SA1' & ->).
  { unfold get_output in Ya. cbn [intermediate_states] in Ya. destruct (_ <? 2); [discriminate|]. destruct (rev SA1) as [|t ts] eqn:Er; [discriminate|]. injection Ya as ->.
    apply rev_cons_last in Er. eauto. }
  pose proof (infer_loop_kept _ _ _ _ _ _ _ Ta) as (Ka & Ka'). pose proof (infer_loop_kept _ _ _ _ _ _ _ Tb) as (Kb & Kb').
  apply (f_equal (@length _)) in Ka, Ka', Kb, Kb'. rewrite !map_length in Ka, Ka', Kb, Kb'.
  assert (Lsa0 : length sa0 = S (length LA)).
  { apply vset_len in Va. unfold len in Va. rewrite app_length in Va. cbn [length] in Va. lia. }
  rewrite app_length in Ka'. cbn [length] in Ka', Kb'.
  exists (mkNet (LA1 ++ LB1) (SA1' ++ Y :: SB1') G i o st), (mkNet LA1 (SA1' ++ [Y]) GA i m st), (mkNet LB1 (Y :: SB1') GB m o st), Y.
  split.
  { unfold infer. cbn [layers intermediate_states intermediate_gradients net_input_shape net_output_shape net_run_state]. rewrite Xa. cbn [negb].
    rewrite (cons_app_assoc SA SB y). replace (len ((SA ++ [y]) ++ SB) <? 2) with false.
    2: { symmetry. apply N.ltb_ge. apply N.ltb_ge in La. unfold len in *. rewrite app_length. lia. }
    rewrite vset_left, Va by (unfold len; rewrite app_length; cbn [length]; lia). cbn [bind].
    rewrite Nrange_upto. unfold len at 1. rewrite app_length, Nat2N.inj_add. fold (len LA). fold (len LB). rewrite upto_add, OpsFacts.tryM_app.
    rewrite infer_loop_left, Ta by (unfold len; lia). cbn [bind]. rewrite <- (cons_app_assoc SA1' SB Y).
    replace (len LA) with (len LA1) by (unfold len; lia). rewrite infer_loop_right by (unfold len; lia). rewrite Tb. reflexivity. }
  split; [exact Ea|]. split; [exact Ya|]. split; [exact Eb|]. constructor; try assumption.
  - intros ->. destruct LA; [congruence|discriminate].
  - intros ->. destruct LB; [congruence|discriminate].
  - lia.
  - lia.
  - rewrite Ka, Kb. exact PG.
Qed.
Lemma vset_out {A} (l : list A) i x : len l <= i -> vset l i x = Panic PBounds.
Proof. intros H. unfold vset. destruct (N.ltb_spec i (len l)); [lia|reflexivity]. Qed.
Lemma vset_end {A} (l : list A) x0 x : vset (l ++ [x0]) (len l) x = Done (l ++ [x])%list.
Proof. rewrite <- (N.add_0_r (len l)), vset_right. reflexivity. Qed.

Lemma pieces_backward bm (n a b : network F) (g : T) : pieces n a b -> wf g ->
  outcome (fun x y => snd y = snd x /\ pieces (fst x) (fst (fst y)) (snd (fst y)))
    (net_backward bm n g)
    ('(b1, r) <- net_backward bm b g ;;
     match r with
     | Err e => Done ((a, b1), Err e)
     | Ok _ => d <- vget (intermediate_gradients b1) 0 ;; '(a1, r) <- net_backward bm a d ;; Done ((a1, b1), r)
     end).
Proof.
  intros P Wg. destruct P as [LA LB SA y SB G GA GB i m o st Na Nb ea eb la lb PG].
  set (a := mkNet LA (SA ++ [y]) GA i m st) in *. set (b := mkNet LB (y :: SB) GB m o st) in *.
  assert (Ple : pieces (mkNet (LA ++ LB) (SA ++ y :: SB) G i o st) a b) by (constructor; assumption).
  assert (La1 : len (LA ++ LB) <? 1 = false) by (apply N.ltb_ge; unfold len; rewrite app_length; destruct LA; [congruence|cbn [length]; lia]).
  assert (Lb1 : len LB <? 1 = false) by (apply N.ltb_ge; unfold len; destruct LB; [congruence|cbn [length]; lia]).
  assert (Lc1 : len LA <? 1 = false) by (apply N.ltb_ge; unfold len; destruct LA; [congruence|cbn [length]; lia]).
  destruct (net_backward bm b g) as [(b1 & r1)|p] eqn:Eb.
  2: { cbn [bind]. unfold net_backward in *. cbn [layers intermediate_states intermediate_gradients net_input_shape net_output_shape net_run_state a b] in *.
       destruct (negb (shape_eqb (get_shape g) o)); [discriminate|]. rewrite La1. rewrite Lb1 in Eb. destruct (negb (run_state_eqb st Training)); [discriminate|].
       destruct PG as [(-> & -> & Hg)|(Ht & GA' & d0 & d & GB' & -> & -> & -> & Ga & Gb & Sd)].
       - rewrite vset_out in Eb by (unfold len; lia). rewrite vset_out by (unfold len; rewrite app_length; lia). cbn [bind] in *. congruence.
       - replace (len (LA ++ LB)) with (len GA' + len LB) by (unfold len; rewrite app_length; lia). rewrite vset_right. rewrite vset_done in * by (unfold len; cbn [length]; lia).
         cbn [bind] in *. rewrite Nrange_upto in *. replace (len GA') with (len LA) by (unfold len; lia). rewrite upto_add, rev_app_distr, <- map_rev, OpsFacts.tryM_app.
         rewrite back_loop_right by (unfold len; lia). destruct (tryM _ _ _) as [((l & s) & r)|q]; cbn [bind] in *; [discriminate|]. cbn. congruence. }
  cbn [bind]. unfold net_backward at 1. cbn [layers intermediate_states intermediate_gradients net_input_shape net_output_shape net_run_state].
  pose proof (net_backward_ok bm _ g _ _ Nb Wg Eb) as Ob1.
  unfold net_backward in Eb. cbn [layers intermediate_states intermediate_gradients net_input_shape net_output_shape net_run_state b] in Eb. rewrite La1. rewrite Lb1 in Eb.
  destruct (negb (shape_eqb (get_shape g) o)); [injection Eb as <- <-; cbn; auto|].
  destruct (negb (run_state_eqb st Training)) eqn:ER; [injection Eb as <- <-; cbn; auto|].
  destruct PG as [(-> & -> & Hg)|(Ht & GA' & d0 & d & GB' & -> & -> & -> & Ga & Gb & Sd)].
  { rewrite vset_out in Eb by (unfold len; lia). discriminate. }
  replace (len (LA ++ LB)) with (len GA' + len LB) by (unfold len; rewrite app_length; lia). rewrite vset_right. rewrite vset_done in * by (unfold len; cbn [length]; lia).
  cbn [bind] in *. rewrite Nrange_upto in *. replace (len GA') with (len LA) by (unfold len; lia). rewrite upto_add, rev_app_distr, <- map_rev, OpsFacts.tryM_app.
  rewrite back_loop_right by (unfold len; lia). apply bind_done in Eb. destruct Eb as (((LB1 & GB1) & r) & Tb & Eb). injection Eb as <- <-. rewrite Tb. cbn [bind].
  pose proof (backward_loop_kept _ _ _ _ _ _ _ _ Tb) as (Kb & Kb'). pose proof (f_equal (@length _) Kb) as Lb. pose proof (f_equal (@length _) Kb') as Lb'.
  rewrite !map_length in Lb, Lb'. rewrite length_list_set in Lb'. cbn [length] in Lb'.
  destruct GB1 as [|D GB1]; [discriminate|]. cbn [length] in Lb'.
  assert (SD : tshape D = m).
  { replace (N.to_nat (len LB)) with (S (length LB - 1)) in Kb' by (unfold len; destruct LB; [congruence|cbn [length]; lia]). cbn [list_set map] in Kb'.
    injection Kb' as Hs Hd _ _. unfold layout in *. congruence. }
  assert (eb1 : LB1 <> []) by (intros ->; destruct LB; [congruence|discriminate]).
  destruct r as [[]|e].
  2: { cbn [bind outcome fst snd]. split; [reflexivity|]. constructor; try assumption; [congruence|]. right. split; [first [assumption|reflexivity]|]. exists GA', d0, D, GB1.
       do 3 (split; [reflexivity|]). split; [exact Ga|]. split; [lia|exact SD]. }
  cbn [intermediate_gradients]. unfold vget. cbn [bind]. replace (0 <? len (D :: GB1)) with true by (symmetry; apply N.ltb_lt; unfold len; cbn [length]; lia).
  cbn [N.to_nat nth_error bind]. unfold net_backward. cbn [layers intermediate_states intermediate_gradients net_input_shape net_output_shape net_run_state a].
  unfold get_shape at 1. rewrite SD, shape_eqb_refl. cbn [negb]. rewrite Lc1, ER. replace (len LA) with (len GA') by (unfold len; lia). rewrite vset_end. cbn [bind].
  replace (len GA') with (len LA) by (unfold len; lia). rewrite Nrange_upto.
  rewrite (cons_app_assoc SA SB y), (cons_app_assoc GA' GB1 D). rewrite back_loop_left by (unfold len; rewrite app_length; cbn [length]; lia).
  destruct (tryM (rev (upto (len LA))) (backward_step bm (SA ++ [y])) (LA, (GA' ++ [D])%list)) as [((LA1 & GA1) & r)|p] eqn:Ta; cbn [bind]; [|reflexivity].
  cbn [outcome fst snd]. split; [reflexivity|]. rewrite <- (cons_app_assoc SA SB y).
  assert (Oa1 : net_ok (mkNet LA1 (SA ++ [y]) GA1 i m st)).
  { apply (net_backward_ok bm a D _ r Na).
    - destruct Ob1 as (_ & _ & _ & W). cbn [intermediate_gradients] in W. inversion W; assumption.
    - unfold net_backward. cbn [layers intermediate_states intermediate_gradients net_input_shape net_output_shape net_run_state a].
      unfold get_shape at 1. rewrite SD, shape_eqb_refl. cbn [negb]. rewrite Lc1, ER. replace (len LA) with (len GA') by (unfold len; lia). rewrite vset_end. cbn [bind].
      replace (len GA') with (len LA) by (unfold len; lia). rewrite Nrange_upto, Ta. reflexivity. }
  pose proof (backward_loop_kept _ _ _ _ _ _ _ _ Ta) as (Ka & Ka'). pose proof (f_equal (@length _) Ka) as La. pose proof (f_equal (@length _) Ka') as La'.
  rewrite !map_length in La, La'. rewrite app_length in La'. cbn [length] in La'.
  assert (exists GA2, GA1 = (GA2 ++ [D])%list) as (GA2 & ->).
  { destruct r as [[]|e].
    all: assert (N : nth_error GA1 (length GA') = Some D); [|apply nth_error_split in N; destruct N as (l1 & l2 & -> & Hl); exists l1; rewrite app_length in La'; cbn [length] in La';
      destruct l2; [reflexivity|cbn [length] in La'; lia]].
    all: refine (tryM_done_inv (fun s => nth_error (snd s) (length GA') = Some D) _ _ _ _ _ _ _ Ta); [cbn [snd]; rewrite nth_error_app2, Nat.sub_diag by lia; reflexivity|];
      intros j (l & s) (l' & s') r0 Hj Q H; cbn [snd] in *; apply in_rev, in_upto in Hj; unfold backward_step in H;
      apply bind_done in H; destruct H as (l0 & _ & H); apply bind_done in H; destruct H as (x1 & _ & H); apply bind_done in H; destruct H as (x2 & _ & H);
      apply bind_done in H; destruct H as (x3 & _ & H); apply bind_done in H; destruct H as (x4 & _ & H);
      apply bind_done in H; destruct H as (((l1 & o1) & r1) & _ & H); apply bind_done in H; destruct H as (l2 & _ & H); apply bind_done in H; destruct H as (s2 & V & H);
      injection H as _ <- _; unfold vset in V; match type of V with (if ?c then _ else _) = _ => destruct c end; [|discriminate]; injection V as <-; rewrite nth_error_list_set_other by (unfold len in Hj; lia); exact Q. }
  rewrite app_length in La'. cbn [length] in La'.
  rewrite <- (cons_app_assoc GA2 GB1 D). constructor; try assumption.
  - intros ->. destruct LA; [congruence|discriminate].
  - congruence.
  - congruence.
  - right. split; [first [assumption|reflexivity]|]. exists GA2, D, D, GB1. do 3 (split; [reflexivity|]). split; [lia|]. split; [lia|exact SD].
Qed.
(** ** Switches and new layers *)
Lemma collect_app {A B} (f : A -> res B) l acc :
  forM l (fun x acc => y <- f x ;; Done (acc ++ [y])%list) acc = (r <- forM l (fun x acc => y <- f x ;; Done (acc ++ [y])%list) [] ;; Done (acc ++ r)%list).
Proof.
  revert acc. induction l as [|x l IH]; intros acc; cbn [forM bind]; [rewrite app_nil_r; reflexivity|]. destruct (f x) as [y|p]; cbn [bind]; [|reflexivity].
  rewrite IH. rewrite (IH ([] ++ [y])%list). destruct (forM l _ []) as [r|p]; cbn [bind]; [|reflexivity]. rewrite <- app_assoc. reflexivity.
Qed.
Lemma forM_app {A S} (f : A -> S -> res S) l1 l2 s : forM (l1 ++ l2) f s = (s1 <- forM l1 f s ;; forM l2 f s1).
Proof. revert s. induction l1 as [|x l1 IH]; intros s; cbn [app forM bind]; [reflexivity|]. destruct (f x s); cbn [bind]; [apply IH|reflexivity]. Qed.
Lemma map_layers_app (f : layer F -> res (layer F)) l1 l2 :
  map_layers f (l1 ++ l2) = (r1 <- map_layers f l1 ;; r2 <- map_layers f l2 ;; Done (r1 ++ r2)%list).
Proof. unfold map_layers. rewrite forM_app. destruct (forM l1 _ []) as [r1|p]; cbn [bind]; [|reflexivity]. apply collect_app. Qed.

Definition fresh (t : T) : T := of_fun (tshape t) (fun _ _ _ => fzero).
Lemma fresh_all bm (l : list T) acc : Forall wf l ->
  forM l (fun s acc => t <- tensor_new bm (get_shape s) ;; Done (acc ++ [t])%list) acc = Done (acc ++ map fresh l)%list.
Proof.
  intros H. revert acc. induction H as [|t l Ht H IH]; intros acc; cbn [forM map]; [rewrite app_nil_r; reflexivity|].
  unfold get_shape at 1. rewrite tensor_new_done by (apply wf_alloc; exact Ht). cbn [bind]. rewrite IH, <- app_assoc. reflexivity.
Qed.

Lemma same_length {A B C} (f : A -> C) (g : B -> C) l l' : map f l' = map g l -> length l' = length l.
Proof. intros H. apply (f_equal (@length _)) in H. rewrite !map_length in H. exact H. Qed.

Lemma pieces_train bm (n a b : network F) : pieces n a b ->
  exists n1 a1 b1, net_switch_to_training bm n = Done n1 /\ net_switch_to_training bm a = Done a1 /\ net_switch_to_training bm b = Done b1 /\ pieces n1 a1 b1.
Proof.
  intros [LA LB SA y SB G GA GB i m o st Na Nb ea eb la lb PG]. destruct (training_ok bm _ Na) as (a1 & Ea & Oa & _). destruct (training_ok bm _ Nb) as (b1 & Eb & Ob & _).
  pose proof (net_training_kept _ _ _ Ea) as (Ia & _). pose proof (net_training_kept _ _ _ Eb) as (Ib & _). apply same_length in Ia, Ib.
  pose proof Na as (_ & _ & Wa & _). pose proof Nb as (Sb & _ & Wb & _). cbn [intermediate_states] in Wa, Wb.
  unfold net_switch_to_training in Ea, Eb. cbn [layers intermediate_states intermediate_gradients net_input_shape net_output_shape net_run_state] in *.
  apply bind_done in Ea. destruct Ea as (LA1 & Ma & Ea). rewrite fresh_all in Ea by exact Wa. cbn [bind app] in Ea. injection Ea as <-.
  apply bind_done in Eb. destruct Eb as (LB1 & Mb & Eb). rewrite fresh_all in Eb by exact Wb. cbn [bind app] in Eb. injection Eb as <-. cbn [layers] in Ia, Ib.
  exists (mkNet (LA1 ++ LB1) (SA ++ y :: SB) (map fresh (SA ++ y :: SB)) i o Training). eexists. eexists.
  split. { unfold net_switch_to_training. cbn [layers intermediate_states intermediate_gradients net_input_shape net_output_shape net_run_state].
    rewrite map_layers_app, Ma. cbn [bind]. rewrite Mb. cbn [bind]. rewrite fresh_all; [reflexivity|]. apply Forall_app. apply Forall_app in Wa. split; [apply Wa|exact Wb]. }
  split. { unfold net_switch_to_training. cbn [layers intermediate_states intermediate_gradients net_input_shape net_output_shape net_run_state]. rewrite Ma. cbn [bind].
    rewrite fresh_all by exact Wa. reflexivity. }
  split. { unfold net_switch_to_training. cbn [layers intermediate_states intermediate_gradients net_input_shape net_output_shape net_run_state]. rewrite Mb. cbn [bind].
    rewrite fresh_all by exact Wb. reflexivity. }
  constructor; try assumption.
  - intros ->. destruct LA; [congruence|discriminate].
  - intros ->. destruct LB; [congruence|discriminate].
  - congruence.
  - congruence.
  - right. split; [first [assumption|reflexivity]|]. exists (map fresh SA), (fresh y), (fresh y), (map fresh SB). rewrite !map_app, !map_length. cbn [map app]. do 3 (split; [reflexivity|]).
    split; [congruence|]. split; [congruence|]. destruct Sb as (_ & H2 & _ & H4). cbn [net_input_shape layers intermediate_states map] in *. rewrite H2, <- H4. reflexivity.
Qed.

Lemma pieces_inference bm (n a b : network F) : pieces n a b ->
  exists n1 a1 b1, net_switch_to_inference bm n = Done n1 /\ net_switch_to_inference bm a = Done a1 /\ net_switch_to_inference bm b = Done b1 /\ pieces n1 a1 b1.
Proof.
  intros [LA LB SA y SB G GA GB i m o st Na Nb ea eb la lb PG]. destruct (inference_ok bm _ Na) as (a1 & Ea & Oa). destruct (inference_ok bm _ Nb) as (b1 & Eb & Ob).
  pose proof (net_inference_kept _ _ _ Ea) as (Ia & _). pose proof (net_inference_kept _ _ _ Eb) as (Ib & _). apply same_length in Ia, Ib.
  unfold net_switch_to_inference in Ea, Eb. cbn [layers intermediate_states intermediate_gradients net_input_shape net_output_shape net_run_state] in *.
  apply bind_done in Ea. destruct Ea as (LA1 & Ma & Ea). injection Ea as <-. apply bind_done in Eb. destruct Eb as (LB1 & Mb & Eb). injection Eb as <-. cbn [layers] in Ia, Ib.
  exists (mkNet (LA1 ++ LB1) (SA ++ y :: SB) [] i o Training). eexists. eexists.
  split. { unfold net_switch_to_inference. cbn [layers intermediate_states intermediate_gradients net_input_shape net_output_shape net_run_state].
    rewrite map_layers_app, Ma. cbn [bind]. rewrite Mb. reflexivity. }
  split. { unfold net_switch_to_inference. cbn [layers intermediate_states intermediate_gradients net_input_shape net_output_shape net_run_state]. rewrite Ma. reflexivity. }
  split. { unfold net_switch_to_inference. cbn [layers intermediate_states intermediate_gradients net_input_shape net_output_shape net_run_state]. rewrite Mb. reflexivity. }
  constructor; try assumption.
  - intros ->. destruct LA; [congruence|discriminate].
  - intros ->. destruct LB; [congruence|discriminate].
  - congruence.
  - congruence.
  - left. split; [reflexivity|]. split; [reflexivity|]. cbn. lia.
Qed.

Lemma pieces_add bm (n a b : network F) l : pieces n a b -> layer_ok l ->
  exists n1 b1 r, add_layer bm n l = Done (n1, r) /\ add_layer bm b l = Done (b1, r) /\ pieces n1 a b1.
Proof.
  intros P Ol. destruct P as [LA LB SA y SB G GA GB i m o st Na Nb ea eb la lb PG].
  assert (P : pieces (mkNet (LA ++ LB) (SA ++ y :: SB) G i o st) (mkNet LA (SA ++ [y]) GA i m st) (mkNet LB (y :: SB) GB m o st)) by (constructor; assumption).
  destruct (add_layer_ok bm _ l Nb Ol) as (b1 & r & Eb & Ob & _).
  unfold add_layer in Eb |- *. cbn [layers intermediate_states intermediate_gradients net_input_shape net_output_shape net_run_state] in *.
  rewrite rev_app_distr. destruct (exists_last eb) as (LB0 & lz & EL). rewrite EL in Eb |- *. rewrite rev_app_distr in Eb |- *. cbn [rev app] in Eb |- *. rewrite <- EL in Eb |- *.
  apply bind_done in Eb. destruct Eb as (l1 & E1 & Eb). rewrite E1. cbn [bind]. destruct (negb _).
  { injection Eb as <- <-. eexists. eexists. eexists. split; [reflexivity|]. split; [reflexivity|]. exact P. }
  apply bind_done in Eb. destruct Eb as (s1 & T1 & Eb). rewrite T1. cbn [bind]. apply bind_done in Eb. destruct Eb as (g1 & Tg & Eb). injection Eb as <- <-.
  rewrite T1 in Tg. cbn [bind] in Tg. assert (exists gs, g1 = (GB ++ gs)%list /\ (if run_state_eqb st Training then Done (G ++ [s1])%list else Done G) = Done (G ++ gs)%list
            /\ length gs = if run_state_eqb st Training then 1%nat else 0%nat) as (gs & -> & Tg' & Lg).
  { destruct (run_state_eqb st Training); [injection Tg as <-; exists [s1]; auto|]. injection Tg as <-. exists []. rewrite !app_nil_r. auto. }
  rewrite Tg'. cbn [bind]. eexists. eexists. eexists. split; [reflexivity|]. rewrite Tg. cbn [bind]. split; [reflexivity|].
  rewrite <- !app_assoc. cbn [app]. constructor; try assumption.
  - destruct LB; discriminate.
  - rewrite !app_length. cbn [length]. lia.
  - rewrite app_length. cbn [length]. destruct PG as [(-> & -> & Hg)|(Ht & GA' & d0 & d & GB' & -> & -> & -> & Ga & Gb & Sd)].
    + left. split; [reflexivity|]. split; [reflexivity|]. rewrite app_length, Lg. destruct (run_state_eqb st Training); lia.
    + subst st. cbn [run_state_eqb] in Lg. right. split; [reflexivity|]. exists GA', d0, d, (GB' ++ gs)%list. cbn [app]. rewrite <- app_assoc, app_length, Lg. cbn [app].
      do 3 (split; [reflexivity|]). split; [exact Ga|]. split; [lia|exact Sd].
Qed.
(** ** Histories *)
Context {BT : Bits F}.

Lemma pieces_step bm (n a b : network F) op : relu_agrees F -> pieces n a b -> good_op op ->
  outcome (fun x y => snd y = snd x /\ pieces (fst x) (fst (fst y)) (snd (fst y))) (run_op bm n op) (pieces_op bm (a, b) op).
Proof.
  intros RA P Go. destruct op as [l|fs name|x|g| |]; cbn [run_op pieces_op good_op] in *.
  - destruct (pieces_add bm n a b l P Go) as (n1 & b1 & r & -> & -> & P1). cbn. auto.
  - destruct Go.
  - destruct (shape_eqb_spec (tshape x) (net_input_shape n)) as [E|E].
    + destruct (pieces_infer bm n a b x RA P Go E) as (n1 & a1 & b1 & Y & -> & -> & EY & Eb & P1). cbn [bind]. rewrite EY. cbn [bind]. rewrite Eb. cbn. auto.
    + assert (Ea : tshape x <> net_input_shape a) by (destruct P; exact E). unfold infer at 1 2. unfold get_shape.
      destruct (shape_eqb_spec (tshape x) (net_input_shape n)); [congruence|]. destruct (shape_eqb_spec (tshape x) (net_input_shape a)); [congruence|]. cbn. auto.
  - apply pieces_backward; assumption.
  - destruct (pieces_train bm n a b P) as (n1 & a1 & b1 & -> & -> & -> & P1). cbn. auto.
  - destruct (pieces_inference bm n a b P) as (n1 & a1 & b1 & -> & -> & -> & P1). cbn. auto.
Qed.

Lemma pieces_run bm ops : relu_agrees F -> Forall good_op ops -> forall n a b, pieces n a b ->
  outcome (fun x y => snd y = snd x /\ pieces (fst x) (fst (fst y)) (snd (fst y))) (history bm n ops) (pieces_history bm (a, b) ops).
Proof.
  intros RA. induction 1 as [|op ops Go _ IH]; intros n a b P; cbn [history pieces_history]; [cbn; auto|].
  pose proof (pieces_step bm n a b op RA P Go) as Q. destruct (run_op bm n op) as [(n1 & r)|p], (pieces_op bm (a, b) op) as [((a1 & b1) & r')|p']; try contradiction; [|exact Q].
  cbn [outcome fst snd] in Q. destruct Q as (-> & P1). cbn [bind]. specialize (IH n1 a1 b1 P1).
  destruct (history bm n1 ops) as [(n2 & rs)|p], (pieces_history bm (a1, b1) ops) as [((a2 & b2) & rs')|p']; try contradiction; [|exact IH].
  cbn [outcome fst snd bind] in *. destruct IH as (-> & P2). auto.
Qed.

(** Networks to which layers have been added and nothing else has happened. *)
Definition added bm st (n : network F) : Prop :=
  net_ok n /\ net_run_state n = st /\ intermediate_gradients n = match st with Training => intermediate_states n | Inference => [] end
  /\ Forall (fun t : T => tensor_new bm (tshape t) = Done t) (intermediate_states n).

Lemma added_new bm st : added bm st (network_new st).
Proof. split; [apply net_ok_new|]. cbn. split; [reflexivity|]. split; [destruct st; reflexivity|constructor]. Qed.
Lemma added_step bm st n l n1 r : added bm st n -> layer_ok l -> add_layer bm n l = Done (n1, r) -> added bm st n1.
Proof.
  intros (N & R & G & S) Ol E. destruct (add_layer_ok bm n l N Ol) as (n2 & r2 & E2 & N2 & _). rewrite E in E2. injection E2 as <- <-.
  split; [exact N2|]. apply add_layer_done in E. destruct E as [E|(_ & -> & _)]; [|auto].
  destruct E as (_ & _ & l1 & ss & _ & _ & _ & Es & _ & Sn & _ & _ & Er & gs & Eg & Egs). rewrite Er, Eg, Es, G, Egs, R. split; [reflexivity|].
  split; [destruct st; reflexivity|]. apply Forall_app. split; [exact S|]. rewrite Forall_forall. exact Sn.
Qed.
Lemma added_all bm st ls : Forall layer_ok ls -> forall n n1 rs, added bm st n -> history bm n (map OAdd ls) = Done (n1, rs) -> added bm st n1.
Proof.
  induction 1 as [|l ls Hl _ IH]; intros n n1 rs A E; cbn [map history] in E; [injection E as <- <-; exact A|].
  apply bind_done in E. destruct E as ((n2 & r) & E1 & E). apply bind_done in E. destruct E as ((n3 & rs') & E2 & E). injection E as <- <-.
  eapply IH; [|exact E2]. eapply added_step; eassumption.
Qed.

Lemma pieces_start bm st (a n b : network F) l : added bm st a -> layers a <> [] -> layer_ok l ->
  add_layer bm a l = Done (n, Ok tt) -> add_layer bm (network_new st) l = Done (b, Ok tt) -> pieces n a b.
Proof.
  intros (Na & Ra & Ga & Sa) NE Ol En Eb. destruct (added_step bm st _ l b (Ok tt) (added_new bm st) Ol Eb) as (Nb & Rb & Gb & Sb).
  apply add_layer_done in En, Eb. destruct En as [En|((e & Q) & _)]; [|discriminate]. destruct Eb as [Eb|((e & Q) & _)]; [|discriminate].
  destruct En as (_ & Lk & l1 & ss & Ln & _ & El & Sn & Hs & Tn & In & On & Rn & gs & Gn & Egs).
  destruct Eb as (_ & _ & l2 & tt2 & Lb & _ & El2 & Sb' & Hs2 & Tn2 & Ib & Ob & _ & gs2 & Gb' & Egs2).
  cbn [network_new layers intermediate_states intermediate_gradients net_run_state app] in *. rewrite Ra in *.
  assert (l2 = l1) as -> by congruence. destruct Lk as [Lk|(ls & lz & Lk & Sh)]; [congruence|].
  pose proof Na as ((_ & _ & Oa & Ha) & _).
  destruct (layers a) as [|la0 las] eqn:Ela; [congruence|]. rewrite <- Ela in *. clear NE.
  destruct ss as [|s1 [|]]; try discriminate. destruct tt2 as [|t0 [|t1 [|]]]; try discriminate. cbn [map] in Hs, Hs2. injection Hs as Hs. injection Hs2 as H0 H1.
  assert (t1 = s1) as ->.
  { pose proof (Tn s1 (or_introl eq_refl)) as Q1. pose proof (Tn2 t1 (or_intror (or_introl eq_refl))) as Q2. rewrite Hs in Q1. rewrite H1 in Q2. congruence. }
  assert (Len : length (intermediate_states a) = S (length (layers a))).
  { apply (f_equal (@length _)) in Ha. rewrite map_length in Ha. rewrite Ha, Ela. cbn. rewrite map_length. reflexivity. }
  destruct (exists_last (l := intermediate_states a)) as (SA & y & Ey); [intros Q; rewrite Q in Len; discriminate|].
  assert (Hy : tshape y = net_output_shape a) by (rewrite Oa, <- Ha, Ey, map_app; cbn [map]; rewrite last_last; reflexivity).
  assert (Hm : net_output_shape a = get_input_shape l).
  { rewrite Oa, <- Sh, Lk. unfold boundaries. destruct (ls ++ [lz])%list eqn:Q; [destruct ls; discriminate|]. rewrite <- Q, map_app. cbn [map].
    rewrite app_comm_cons, last_last. reflexivity. }
  assert (t0 = y) as ->.
  { pose proof (Tn2 t0 (or_introl eq_refl)) as Q2. rewrite H0 in Q2. rewrite Ey in Sa. apply Forall_app in Sa. destruct Sa as (_ & Sa). inversion Sa as [|? ? Q1 _]; subst. rewrite Hy, Hm in Q1. congruence. }
  destruct a as [LA SA0 GA ia oa sta], b as [LB SB GB ib ob stb], n as [LN SN GN iN oN stn].
  cbn [layers intermediate_states intermediate_gradients net_input_shape net_output_shape net_run_state] in *. subst.
  rewrite Hm in Na |- *. rewrite <- (cons_app_assoc SA [s1] y). rewrite app_length in Len. cbn [length] in Len. constructor; try assumption; try discriminate.
  - cbn [length]. lia.
  - reflexivity.
  - destruct st; [left; cbn; auto with arith|]. right. split; [reflexivity|]. exists SA, y, y, [s1]. do 2 (split; [reflexivity|]). split; [rewrite <- app_assoc; reflexivity|].
    split; [cbn [length]; lia|]. split; [reflexivity|exact H0].
Qed.

Lemma pieces_together bm st ls (a n b : network F) ra l ops : relu_agrees F ->
  history bm (network_new st) (map OAdd ls) = Done (a, ra) -> layers a <> [] -> Forall layer_ok (l :: ls) ->
  add_layer bm a l = Done (n, Ok tt) -> add_layer bm (network_new st) l = Done (b, Ok tt) -> Forall good_op ops ->
  outcome (fun x y => snd y = snd x /\ two_pieces (fst x) (fst (fst y)) (snd (fst y))) (history bm n ops) (pieces_history bm (a, b) ops).
Proof.
  intros RA Ea NE Ol En Eb Go. inversion Ol as [|? ? Ol1 Ol2]; subst. pose proof (added_all bm st ls Ol2 _ _ _ (added_new bm st) Ea) as A.
  pose proof (pieces_run bm ops RA Go n a b (pieces_start bm st a n b l A NE Ol1 En Eb)) as Q.
  destruct (history bm n ops) as [(n2 & rs)|p], (pieces_history bm (a, b) ops) as [((a2 & b2) & rs')|p']; try contradiction; [|exact Q].
  cbn [outcome fst snd] in *. split; [apply Q|]. apply pieces_two, Q.
Qed.
End Any.
