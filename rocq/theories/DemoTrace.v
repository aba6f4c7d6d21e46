(** * The example of C106: the network of C105, evaluated on other inputs between its training samples *)
From Verif Require Import Base Arith Helper Tensor Network Bincode Serial Spec SpecLayer SpecNet SpecPlatform SpecTrace Float32 Loops Demo DemoNet DemoPieces.
Local Open Scope N_scope.

Definition e_other : tensor f32 := tn (mkShape 4 2 1) [-9;2;6;1; 0;-3;5;7]%Z.
Definition e_wrong : tensor f32 := tn (mkShape 1 1 1) [1]%Z.
Definition e_run : list (evaluated_sample f32) :=
  [([e_other; e_wrong; e_other], (d_image, tn (mkShape 2 1 1) [1; 2]%Z)); ([], (d_image, tn (mkShape 2 1 1) [3; -1]%Z)); ([e_other], (d_image, tn (mkShape 2 1 1) [-1; 5]%Z))].

Lemma history_built bm ops : forall (n n' : network f32) rs, @well_built _ (f32_arith demo_env) f32_bits bm n -> Forall good_op ops ->
  @history _ (f32_arith demo_env) f32_bits bm n ops = Done (n', rs) -> @well_built _ (f32_arith demo_env) f32_bits bm n'.
Proof.
  induction ops as [|op ops IH]; intros n n' rs B G E; cbn [history] in E; [injection E as <- <-; exact B|]. inversion G; subst.
  apply bind_done in E. destruct E as ((n1 & r) & E1 & E). apply bind_done in E. destruct E as ((n2 & rs2) & E2 & E). injection E as <- <-.
  eapply IH; [|eassumption|exact E2]. eapply built_step; eassumption.
Qed.
Lemma e_built : @well_built _ (f32_arith demo_env) f32_bits Debug c_n.
Proof.
  destruct c_a_built as (ra & E). pose proof c_ok as O. inversion O as [|? ? O1 O2]; subst.
  eapply built_step with (op := OAdd d_fc); [|exact O1|exact c_n_built]. eapply history_built; [apply built_new| |exact E].
  clear -O2. induction O2; constructor; assumption.
Qed.
Lemma e_some : layers c_n <> [].
Proof. intros Q. assert (E : match layers c_n with [] => true | _ => false end = false) by (vm_compute; reflexivity). rewrite Q in E. discriminate. Qed.
Lemma e_input : net_input_shape c_n = mkShape 4 2 1.
Proof. vm_compute. reflexivity. Qed.
Lemma e_fit : Forall (fun '(zs, (x, g)) => Forall wf zs /\ shaped x (net_input_shape c_n) /\ wf g) e_run.
Proof.
  rewrite e_input. unfold e_run. repeat (constructor; [split; [repeat (constructor; [demo_wf|]); constructor|split; [split; [demo_wf|reflexivity]|demo_wf]]|]). constructor.
Qed.
