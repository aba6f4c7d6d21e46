(** * The examples of C108 *)
From Coq Require Import ZifyBool ZifyNat ZifyN.
From Flocq Require Import IEEE754.Binary.
From Verif Require Import Base Arith Helper Tensor Network Bincode Serial Float32 Spec SpecLayer SpecNet SpecError SpecNeutral Demo DemoNet NetFacts LayerFacts.
Local Open Scope N_scope.

Definition i_t (s : shape) (l : list bool) : tensor f32 := mkTensor (mkStride 1 (di s) (di s * dj s)) s (map (fun b : bool => if b then f32_one else f32_zero) l).
Definition i_fc : layer f32 := LFC (mkFC (i_t (mkShape 2 2 1) [true; false; false; true]) dot dot (i_t (mkShape 2 1 1) [false; false]) dot dot "same" Inference).
Definition i_cv : layer f32 :=
  LConv (mkConv [i_t (mkShape 1 1 2) [true; false]; i_t (mkShape 1 1 2) [false; true]] [i_t (mkShape 1 1 1) [false]; i_t (mkShape 1 1 1) [false]] [] []
    1 dot (mkShape 2 2 2) (mkShape 2 2 2) "same" Inference).
Definition i_mp : layer f32 := LMaxPool (mkMP (mkShape 4 2 1) (mkShape 1 1 1) (mkShape 4 2 1) 1 "same" Inference []).
Fixpoint i_adds (n : network f32) (ls : list (layer f32)) : option (network f32) :=
  match ls with
  | [] => Some n
  | l :: ls => match add_layer Debug n l with Done (n1, Ok _) => i_adds n1 ls | _ => None end
  end.
Definition i_built (ls : list (layer f32)) : option (network f32) := i_adds (network_new Inference) ls.
Lemma i_adds_built ls : forall n n', well_built Debug n -> Forall layer_ok ls -> i_adds n ls = Some n' ->
  well_built Debug n' /\ map params_of (layers n') = (map params_of (layers n) ++ map params_of ls)%list.
Proof.
  induction ls as [|l ls IH]; intros n n' B O E; cbn [i_adds map] in *; [injection E as <-; rewrite app_nil_r; auto|]. inversion O; subst.
  destruct (add_layer Debug n l) as [(n1 & [u|])|] eqn:E1; try discriminate. destruct (IH n1 n') as (B' & P); try assumption.
  { eapply built_step with (op := OAdd l); eassumption. }
  split; [exact B'|]. rewrite P. apply add_layer_done in E1. destruct E1 as [E1|((e0 & E1) & _)]; [|discriminate]. destruct E1 as (_ & _ & l1 & ss & L & I & _).
  rewrite L, map_app, <- app_assoc. assert (I0 : params_of l1 = params_of l) by (injection I as I _ _; exact I). cbn [map app]. rewrite I0. reflexivity.
Qed.

Lemma i_fc_ok : layer_ok i_fc.
Proof. exists 2, 2. split; [split; [demo_wf|reflexivity]|]. split; [split; [demo_wf|reflexivity]|discriminate]. Qed.
Lemma i_cv_ok : layer_ok i_cv.
Proof.
  exists (mkShape 1 1 2). split; [repeat split; reflexivity|]. split.
  { repeat constructor; try reflexivity; apply wfb_wf; vm_compute; reflexivity. }
  split; [reflexivity|]. split; [vm_compute; discriminate|]. split.
  { repeat constructor; try reflexivity; try (vm_compute; discriminate); apply wfb_wf; vm_compute; reflexivity. }
  split; [repeat split; reflexivity|]. split; [repeat split; reflexivity|].
  split; [|discriminate]. intros ch H. cbn in H. repeat split; try reflexivity; try discriminate. exact H.
Qed.
Lemma i_mp_ok : layer_ok i_mp.
Proof. repeat split; try reflexivity; try discriminate. Qed.

Lemma below_2 i : i < 2 -> i = 0 \/ i = 1.
Proof. lia. Qed.
Lemma i_fc_nothing : does_nothing demo_env Debug (params_of i_fc).
Proof.
  exists 2. split.
  - eapply holds_ext; [|refine (demo_holds Debug (i_t (mkShape 2 2 1) [true; false; false; true]) _); vm_compute; reflexivity].
    intros i j k (Hi & Hj & Hk). cbn [di dj dk i_t tshape] in *. assert (k = 0) as -> by lia. destruct (below_2 i Hi) as [-> | ->], (below_2 j Hj) as [-> | ->]; vm_compute; reflexivity.
  - eapply holds_ext; [|refine (demo_holds Debug (i_t (mkShape 2 1 1) [false; false]) _); vm_compute; reflexivity].
    intros i j k (Hi & Hj & Hk). cbn [di dj dk i_t tshape] in *. assert (k = 0) as -> by lia. assert (j = 0) as -> by lia. destruct (below_2 i Hi) as [-> | ->]; vm_compute; reflexivity.
Qed.
Lemma i_cv_nothing : does_nothing demo_env Debug (params_of i_cv).
Proof.
  split; [reflexivity|]. split; [reflexivity|]. split; [|repeat constructor; vm_compute; reflexivity].
  intros n t E. destruct (N.to_nat n) as [|[|q]] eqn:Q; cbn [nth_error] in E; [injection E as <-..|destruct q; discriminate].
  - assert (n = 0) as -> by lia. eapply holds_ext; [|refine (demo_holds Debug (i_t (mkShape 1 1 2) [true; false]) _); vm_compute; reflexivity].
    intros i j k (Hi & Hj & Hk). cbn [di dj dk i_t tshape] in *. assert (i = 0) as -> by lia. assert (j = 0) as -> by lia. destruct (below_2 k Hk) as [-> | ->]; vm_compute; reflexivity.
  - assert (n = 1) as -> by lia. eapply holds_ext; [|refine (demo_holds Debug (i_t (mkShape 1 1 2) [false; true]) _); vm_compute; reflexivity].
    intros i j k (Hi & Hj & Hk). cbn [di dj dk i_t tshape] in *. assert (i = 0) as -> by lia. assert (j = 0) as -> by lia. destruct (below_2 k Hk) as [-> | ->]; vm_compute; reflexivity.
Qed.
Lemma i_mp_nothing : does_nothing demo_env Debug (params_of i_mp).
Proof. repeat split. Qed.

(** What inference on [X] leaves at boundary [i], and the output. *)
Definition i_run (n : network f32) (X : tensor f32) (i : N) : option (list Z * list Z) :=
  match infer Debug n X with
  | Done (m, Ok _) => match get_intermediate_state m i, get_output m with Done (Ok Z), Done (Ok Y) => Some (tbits Z, tbits Y) | _, _ => None end
  | _ => None
  end.

Definition i_try (ls : list (layer f32)) (X : tensor f32) (i : N) : option (list Z * list Z) :=
  match i_built ls with Some n => i_run n X i | None => None end.

Lemma i_found ls X i r : Forall layer_ok ls -> i_try ls X i = Some r ->
  exists n, well_built Debug n /\ map params_of (layers n) = map params_of ls /\ i_run n X i = Some r.
Proof.
  intros O E. unfold i_try in E. destruct (i_built ls) as [n|] eqn:Eb; [|discriminate]. destruct (i_adds_built ls _ _ (built_new _ _) O Eb) as (B & P). exists n. auto.
Qed.

Definition i_square : tensor f32 := tn (mkShape 3 3 1) [1;2;3;4;5;6;7;-8;9]%Z.

Lemma i_pair ls ls' X i i' r r' : Forall layer_ok ls -> Forall layer_ok ls' -> i_try ls X i = Some r -> i_try ls' X i' = Some r' ->
  exists n n', (well_built Debug n /\ map params_of (layers n) = map params_of ls /\ i_run n X i = Some r)
    /\ (well_built Debug n' /\ map params_of (layers n') = map params_of ls' /\ i_run n' X i' = Some r').
Proof.
  intros O O' E E'. destruct (i_found _ _ _ _ O E) as (n & H). destruct (i_found _ _ _ _ O' E') as (n' & H'). exists n, n'. auto.
Qed.

Ltac i_oks := first [exact d_fc_ok | exact d_mp_ok | exact d_cv_ok | exact i_fc_ok | exact i_cv_ok | exact i_mp_ok].

Lemma i_between : exists n n',
  (well_built Debug n /\ map params_of (layers n) = map params_of ([d_mp; d_fc] ++ [d_fc]) /\ i_run n d_image 2 = Some (ints [18; 0], ints [19; 0])%Z)
  /\ (well_built Debug n' /\ map params_of (layers n') = map params_of ([d_mp; d_fc] ++ i_fc :: [d_fc]) /\ i_run n' d_image 2 = Some (ints [18; 0], ints [19; 0])%Z).
Proof.
  apply i_pair; [| |vm_compute; reflexivity..]; cbn [app]; repeat apply Forall_cons; try apply Forall_nil; i_oks.
Qed.
Lemma i_behind : exists n n',
  (well_built Debug n /\ map params_of (layers n) = map params_of [d_cv] /\ i_run n i_square 1 = Some (ints [7; 9; 0; 15; 0; 0; 0; 0], ints [7; 9; 0; 15; 0; 0; 0; 0])%Z)
  /\ (well_built Debug n' /\ map params_of (layers n') = map params_of [d_cv; i_cv] /\ i_run n' i_square 1 = Some (ints [7; 9; 0; 15; 0; 0; 0; 0], ints [7; 9; 0; 15; 0; 0; 0; 0])%Z).
Proof. apply i_pair; [| |vm_compute; reflexivity..]; repeat apply Forall_cons; try apply Forall_nil; i_oks. Qed.
Lemma i_front : exists n n',
  (well_built Debug n /\ map params_of (layers n) = map params_of [d_mp; d_fc] /\ i_run n d_image 0 = Some (ints [1; 8; 3; -4; 5; 2; -7; -6], ints [18; 0])%Z)
  /\ (well_built Debug n' /\ map params_of (layers n') = map params_of [i_mp; d_mp; d_fc] /\ i_run n' d_image 1 = Some (ints [1; 8; 3; -4; 5; 2; -7; -6], ints [18; 0])%Z).
Proof. apply i_pair; [| |vm_compute; reflexivity..]; repeat apply Forall_cons; try apply Forall_nil; i_oks. Qed.
Lemma i_clips : i_try [i_fc] (tn (mkShape 2 1 1) [-1; 2]%Z) 0 = Some (ints [-1; 2], ints [0; 2])%Z.
Proof. vm_compute. reflexivity. Qed.
