(** * C107: names are only labels *)
From Verif Require Import Base Arith Helper Tensor Network Bincode Serial Float32 Spec SpecLayer SpecNet SpecPlatform SpecLabel.
From Verif Require Import ProofsLabel Demo DemoNet DemoPieces DemoLabel.
Local Open Scope N_scope.

(** The same calls on two networks that differ in names, well-formed or not: both panic for the same reason, or all calls return the same
    results, messages of errors included, and leave networks that differ in names. *)
Theorem C107_history : forall e bm (n n' : network f32) ops ops', let AR := f32_arith e in
  renamed_net n n' -> Forall2 renamed_op ops ops' ->
  outcome (fun a b => renamed_net (fst a) (fst b) /\ snd b = snd a) (history bm n ops) (history bm n' ops').
Proof. exact (fun e bm n n' ops ops' H O => @label_history f32 (f32_arith e) f32_bits bm ops ops' O n n' H). Qed.
Print Assumptions C107_history.

(** Constructors given another name. *)
Theorem C107_constructors : forall e bm s s', let AR := f32_arith e in
  (forall i o, outcome (fun a b => renamed (LFC a) (LFC b)) (fc_new bm i o s) (fc_new bm i o s'))
  /\ (forall ks ins stride d, outcome (renamed_result LConv) (cv_new bm ks ins stride d s) (cv_new bm ks ins stride d s'))
  /\ (forall ms ins stride, outcome (renamed_result (F := f32) LMaxPool) (mp_new bm ms ins stride s) (mp_new bm ms ins stride s'))
  /\ (forall sh, outcome (renamed_result LSoftmax) (sm_new bm sh s) (sm_new bm sh s')).
Proof. exact (fun e bm s s' => @label_new f32 (f32_arith e) bm s s'). Qed.
Print Assumptions C107_constructors.

(** The network of C105 with two names exchanged and one removed: other names, the same answers and the same gradients. *)
Example C107_case : renamed_net c_n l_other /\ Forall2 renamed_op l_calls l_calls'
  /\ match l_seen c_n l_calls, l_seen l_other l_calls' with
     | Some (names, answers, gradients, states), Some (names', answers', gradients', states') =>
         names = ["pool"; "dense"; "dense"; "soft"]%string /\ names' = ["dense"; "pool"; ""; "sm"]%string
         /\ answers' = answers /\ gradients' = gradients /\ states' = states /\ len states = 5
     | _, _ => False
     end.
Proof.
  split; [|split].
  - unfold l_other. assert (Q : length (layers c_n) = 3%nat) by (vm_compute; reflexivity).
    unfold renamed_net. destruct (layers c_n) as [|a [|b [|c [|]]]]; try discriminate. cbn [layers intermediate_states intermediate_gradients net_input_shape net_output_shape net_run_state].
    split; [|auto 10]. repeat (constructor; [eexists; reflexivity|]). constructor.
  - unfold l_calls, l_calls'. repeat (constructor; [first [reflexivity|eexists; reflexivity|apply renamed_refl]|]). constructor.
  - vm_compute. repeat split.
Qed.
