(** * Empty layers *)
From Flocq Require Import IEEE754.Binary.
From Verif Require Import Base Arith Helper Tensor Convolution FullyConnected Convolutional MaxPool Softmax Network Float32 Float32Facts SpecEmpty.
Local Open Scope N_scope.

Ltac run := lazy -[fzero fninf fadd fmul fdiv fgtb fexp fmax].

Section Any.
Context {F : Type} {AR : Arith F}.

Lemma mp_empty_answers bm st (x : F) : answers bm st (LMaxPool mp_empty) x (if fgtb x fninf then x else fninf).
Proof.
  destruct (fgtb x fninf) eqn:G; destruct st, bm; (eexists; eexists; split; [run; reflexivity|]); (split; [run; rewrite ?G; run; reflexivity|]); run; rewrite ?G; run; reflexivity.
Qed.

Lemma sm_empty_answers bm st (x : F) : exists l, sm_empty bm = Done l /\ answers bm st (LSoftmax l) x (fdiv (fexp x) (fadd fzero (fexp x))).
Proof.
  destruct st, bm; (eexists; split; [run; reflexivity|]); (eexists; eexists; split; [run; reflexivity|]); (split; [run; reflexivity|]); lazy; reflexivity.
Qed.

Lemma fc_empty_answers bm st (x : F) : exists l, fc_empty bm = Done l
  /\ let s := fadd (fadd fzero (fmul fzero x)) fzero in
     answers bm st (LFC l) x (match st with Inference => fmax s fzero | Training => if fgtb s fzero then s else fzero end).
Proof.
  cbv zeta. destruct (fgtb (fadd (fadd fzero (fmul fzero x)) fzero) fzero) eqn:G; destruct st, bm;
    (eexists; split; [run; reflexivity|]); (eexists; eexists; split; [run; reflexivity|]); (split; [run; rewrite ?G; run; reflexivity|]); run; rewrite ?G; run; reflexivity.
Qed.

Lemma cv_empty_panics bm st : exists (l : conv_layer F) n, cv_empty bm = Done l /\ add_layer bm (network_new st) (LConv l) = Done (n, Ok tt)
  /\ net_input_shape n = mkShape 1 1 1 /\ forall x, exists p, infer bm n (single x) = Panic p.
Proof.
  destruct st, bm; (eexists; eexists; split; [run; reflexivity|]); (split; [run; reflexivity|]); (split; [reflexivity|]); intros x; eexists; lazy; reflexivity.
Qed.
End Any.

Lemma empty_sum e x : let s := f32_add e (f32_add e f32_zero (f32_mul e f32_zero x)) f32_zero in s = f32_zero \/ isnan s = true.
Proof. destruct x as [[]|[]|? ?|[] ? ?]; cbn; auto. Qed.

Lemma isnan_gtb x y : isnan x = true -> f32_gtb x y = false.
Proof. intros H. unfold f32_gtb. rewrite cmp_nan_l by exact H. reflexivity. Qed.

Lemma empty_layers e bm st x :
  let AR := f32_arith e in
  (exists l, fc_empty bm = Done l /\ answers bm st (LFC l) x f32_zero)
  /\ answers bm st (LMaxPool mp_empty) x (if isnan x then f32_ninf else x)
  /\ exists l, sm_empty bm = Done l /\ answers bm st (LSoftmax l) x (f32_div e (env_exp e x) (f32_add e f32_zero (env_exp e x))).
Proof.
  intros AR. split; [|split].
  - destruct (@fc_empty_answers f32 AR bm st x) as (l & E & A). exists l. split; [exact E|]. revert A. cbv zeta.
    change (fadd (fadd fzero (fmul fzero x)) fzero) with (f32_add e (f32_add e f32_zero (f32_mul e f32_zero x)) f32_zero).
    change (@fmax f32 AR) with (f32_max e). change (@fgtb f32 AR) with f32_gtb. change (@fzero f32 AR) with f32_zero.
    destruct (empty_sum e x) as [->|N].
    + replace (f32_max e f32_zero f32_zero) with f32_zero by (unfold f32_max; cbn; destruct (max_zero e _ _); reflexivity). destruct st; exact (fun A => A).
    + unfold f32_max. rewrite (isnan_gtb _ _ N), N. destruct st; exact (fun A => A).
  - pose proof (@mp_empty_answers f32 AR bm st x) as A. change (@fgtb f32 AR) with f32_gtb in A. change (@fninf f32 AR) with f32_ninf in A.
    destruct (isnan x) eqn:N; [rewrite (isnan_gtb _ _ N) in A; exact A|]. destruct (f32_gtb x f32_ninf) eqn:G; [exact A|].
    replace x with f32_ninf; [|destruct x as [|[]| |]; try discriminate; reflexivity].
    replace (f32_gtb f32_ninf f32_ninf) with false in A by reflexivity. 
    pose proof (@mp_empty_answers f32 AR bm st f32_ninf) as A'. exact A'.
  - exact (@sm_empty_answers f32 AR bm st x).
Qed.
