(** * The convolution and pooling of C71, on a larger and a smaller image *)
From Verif Require Import Base Arith Helper Tensor Network Bincode Serial Spec SpecLayer SpecNet Float32 Loops TensorFacts SpecField Demo DemoNet DemoMono.
Local Open Scope string_scope.
Local Open Scope N_scope.

Definition f_cv : layer f32 :=
  LConv (mkConv [tn (mkShape 3 3 1) [1;0;0;0;1;0;0;0;1]%Z] [tn (mkShape 1 1 1) [-2]%Z] [] [] 1 dot (mkShape 4 4 1) (mkShape 2 2 1) "conv" Inference).
Lemma f_cv_ok : layer_ok f_cv.
Proof.
  exists (mkShape 3 3 1). split; [repeat split; reflexivity|]. split.
  { repeat constructor; try reflexivity; apply wfb_wf; vm_compute; reflexivity. }
  split; [reflexivity|]. split; [vm_compute; discriminate|]. split.
  { repeat constructor; try reflexivity; try (vm_compute; discriminate); apply wfb_wf; vm_compute; reflexivity. }
  split; [repeat split; reflexivity|]. split; [repeat split; reflexivity|].
  split; [|discriminate]. intros ch H. cbn in H. repeat split; try reflexivity; try discriminate. exact H.
Qed.
Definition f_mp : layer f32 := LMaxPool (mkMP (mkShape 2 2 1) (mkShape 2 2 1) (mkShape 1 1 1) 2 "pool" Inference []).
Lemma f_mp_ok : layer_ok f_mp.
Proof. split; [repeat split; reflexivity|]. split; [repeat split; reflexivity|]. split; [repeat split; try reflexivity; discriminate|discriminate]. Qed.

Definition f_large : list (layer f32) := [m_cv; d_mp].
Definition f_small : list (layer f32) := [f_cv; f_mp].

Lemma f_alike : Forall2 alike (map params_of f_large) (map params_of f_small).
Proof. constructor; [constructor|]. constructor; [constructor; reflexivity|constructor]. Qed.

Lemma f_field : field (map params_of f_large) 2 4 4.
Proof.
  change 2 with (1 * (2 * 1)). change 4 with (((1 - 1) * 2 + 2 - 1) * 1 + 3).
  apply (FieldConv _ _ 1 _ _ _ _ _ _ 3 3); [apply (FieldMaxPool _ (mkShape 2 2 1) _ 2), FieldNone|].
  intros k [<-|[]]. split; reflexivity.
Qed.

(** The image, and its last four rows. *)
Definition f_image : tensor f32 := tn (mkShape 6 4 1) [1;8;3;4;0;2; 5;2;7;6;1;9; 4;4;0;3;2;6; 8;1;1;5;7;3]%Z.
Definition f_crop : tensor f32 := tn (mkShape 4 4 1) [3;4;0;2; 7;6;1;9; 0;3;2;6; 1;5;7;3]%Z.

Definition f_nets : option (network f32 * network f32) :=
  match run_all Debug (network_new Inference) (map OAdd f_large), run_all Debug (network_new Inference) (map OAdd f_small) with
  | Some n, Some n' => Some (n, n')
  | _, _ => None
  end.

Lemma f_nets_ok : forall p, f_nets = Some p -> (well_built Debug (fst p) /\ well_built Debug (snd p))
  /\ Forall2 alike (map params_of (layers (fst p))) (map params_of (layers (snd p))) /\ field (map params_of (layers (fst p))) 2 4 4.
Proof.
  intros (n & n') E. unfold f_nets in E. cbn [fst snd].
  assert (B : forall ls n, run_all Debug (network_new Inference) (map OAdd ls) = Some n -> Forall layer_ok ls ->
    option_map (fun n : network f32 => length (layers n)) (run_all Debug (network_new Inference) (map OAdd ls)) = Some (length ls) ->
    well_built Debug n /\ map params_of (layers n) = map params_of ls).
  { intros ls m Em G L. split.
    - eapply run_all_built; [apply built_new| |exact Em]. rewrite Forall_map. exact G.
    - rewrite (added_params _ _ _ _ Em); [reflexivity|]. rewrite Em in L. injection L as ->. reflexivity. }
  destruct (run_all Debug (network_new Inference) (map OAdd f_large)) as [m|] eqn:E1; [|discriminate E].
  destruct (run_all Debug (network_new Inference) (map OAdd f_small)) as [m'|] eqn:E2; [|discriminate E]. injection E as -> ->.
  destruct (B _ _ E1) as (W & P); [constructor; [exact m_cv_ok|constructor; [exact d_mp_ok|constructor]]|vm_compute; reflexivity|].
  destruct (B _ _ E2) as (W' & P'); [constructor; [exact f_cv_ok|constructor; [exact f_mp_ok|constructor]]|vm_compute; reflexivity|].
  rewrite P, P'. split; [auto|]. split; [exact f_alike|exact f_field].
Qed.
