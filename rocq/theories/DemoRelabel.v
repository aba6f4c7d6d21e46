(** * Examples for C104 *)
From Coq Require Import Reals Lra Lia.
From Verif Require Import Base Arith Helper Tensor Network Bincode Serial Spec SpecLayer SpecNet SpecReal SpecTrain SpecBatch SpecOpposed SpecRewire SpecRelabel RealArith Loops LayerFacts TensorFacts NetBack ProofsRelabel Float32 Demo DemoReal DemoGrad DemoJoint.
Local Open Scope R_scope.

(** The two hidden units change places; new unit [u] is multiplied by [c u]. *)
Definition swap_views (c : N -> R) (i : nat) : view := match i with 1%nat => Relabel 2 (fun u => 1 - u)%N c | _ => Plain end.

Lemma swap_ok c : (forall u, 0 < c u) -> forall i, view_ok (swap_views c i).
Proof. intros P [|[|i]]; cbn [swap_views view_ok]; auto. split; [|auto]. split; intros; lia. Qed.

Ltac two i Hi := let D := fresh in assert (D : i = 0%N \/ i = 1%N) by lia; destruct D as [-> | ->].
Ltac one i Hi := let D := fresh in assert (D : i = 0%N) by lia; subst i.

Lemma swap_layers c : (forall u, 0 < c u) -> forall w w' b b' v v' d,
  layers_seen (-1000) Debug (swap_views c) (layers (j_net [w; w'] [b; b'] [v; v'] [d]))
    (layers (j_net [c 0%N * w'; c 1%N * w] [c 0%N * b'; c 1%N * b] [v' / c 0%N; v / c 1%N] [d])).
Proof.
  intros P w w' b b' v v' d. rewrite !(proj1 (j_layers _ _ _ _)). split; [reflexivity|]. pose proof (P 0%N) as P0. pose proof (P 1%N) as P1.
  intros [|[|i]] l l' N N'; [| |destruct i; discriminate N]; injection N as <-; injection N' as <-; cbn [swap_views].
  - eapply (seen_fc (-1000) Debug _ _ _ _ 2%N 1%N); cbn [fc_weights fc_weights_gradients fc_bias fc_bias_gradients]; try reflexivity; try exact I; try (apply shaped_holds; demo_shaped); cbn [factor old].
    + intros i p Hi Hp. one p Hp. two i Hi; cbv - [Rmult Rdiv IZR]; field.
    + intros i Hi. two i Hi; cbv - [Rmult IZR]; reflexivity.
    + intros i p Hi Hp. one p Hp. two i Hi; cbv - [Rmult Rdiv IZR]; field; lra.
    + intros i Hi. two i Hi; cbv - [Rdiv IZR]; field; lra.
  - eapply (seen_fc (-1000) Debug _ _ _ _ 1%N 2%N); cbn [fc_weights fc_weights_gradients fc_bias fc_bias_gradients]; try reflexivity; try exact I; try (apply shaped_holds; demo_shaped); cbn [factor old].
    + intros i p Hi Hp. one i Hi. two p Hp; cbv - [Rmult Rdiv IZR]; field; lra.
    + intros i Hi. one i Hi. cbv - [Rmult IZR]. ring.
    + intros i p Hi Hp. one i Hi. two p Hp; cbv - [Rmult Rdiv IZR]; field.
    + intros i Hi. one i Hi. cbv - [Rdiv IZR]. field.
Qed.

Lemma j_samples c : samples_seen (-1000) Debug (swap_views c) 2 [(j_x, j_g)] [(j_x, j_g)].
Proof.
  constructor; [|constructor]. cbn [fst snd swap_views]. split; exists (mkShape 1 1 1); do 2 eexists; (split; [exact I|]); (split; [apply shaped_holds; demo_shaped|]); (split; [apply shaped_holds; demo_shaped|]);
    intros i j k Hin; cbn [factor old]; field.
Qed.

Lemma train_session {F} {AR : Arith F} bm batch : forall n m : network F, train bm n batch = Done (m, Ok tt) -> session bm n batch m.
Proof.
  induction batch as [|(x & g) rest IH]; intros n m E; cbn [train] in E; [injection E as <-; constructor|].
  apply bind_done in E. destruct E as ((n1 & [[]|e]) & E1 & E); [|discriminate]. apply bind_done in E. destruct E as ((n2 & [[]|e]) & E2 & E); [|discriminate].
  econstructor; eauto.
Qed.

Ltac stepped_holds := eapply holds_ext; [|apply shaped_holds; demo_shaped];
  let i := fresh "i" in let j := fresh "j" in let k := fresh "k" in let Hi := fresh in let Hj := fresh in let Hk := fresh in
  intros i j k (Hi & Hj & Hk); cbn [di dj dk] in Hi, Hj, Hk; one k Hk; first [one i Hi|two i Hi]; first [one j Hj|two j Hj]; cbv - [Rmult Rminus Rplus Ropp IZR]; lra.

(** One batch and one step of length 1. *)
Lemma j_epoch : epochs (-1000) Debug j_start [(1, [(j_x, j_g)])] (j_net [-2; -7] [0; 3] [-3; 0] [-2]).
Proof.
  destruct j_trained as (n' & f1 & f2 & E & L & W1 & B1 & W2 & B2 & GW1 & GB1 & GW2 & GB2).
  apply (epochs_batch (-1000) Debug) with (m := n') (q := j_net [-2; -7] [0; 3] [-3; 0] [-2]).
  - apply train_session. exact E.
  - apply j_built.
  - rewrite L, (proj1 (j_layers _ _ _ _)). constructor; [|constructor; [|constructor]].
    + apply (stepped_fc (-1000) Debug _ _ _ 2%N 1%N (at_ (rt (mkShape 2 1 1) [1; -1])) (at_ (rt (mkShape 2 1 1) [1; 5])) (at_ (rt (mkShape 2 1 1) [3; 6])) (at_ (rt (mkShape 2 1 1) [1; 2])));
        cbn [fc_weights fc_weights_gradients fc_bias fc_bias_gradients]; rewrite ?W1, ?B1, ?GW1, ?GB1; try demo_rhold; stepped_holds.
    + apply (stepped_fc (-1000) Debug _ _ _ 1%N 2%N (at_ (rt (mkShape 1 2 1) [1; 2])) (at_ (rt (mkShape 1 1 1) [-1])) (at_ (rt (mkShape 1 2 1) [4; 2])) (at_ (rt (mkShape 1 1 1) [1])));
        cbn [fc_weights fc_weights_gradients fc_bias fc_bias_gradients]; rewrite ?W2, ?B2, ?GW2, ?GB2; try demo_rhold; stepped_holds.
  - constructor.
Qed.
