(** * Vocabulary for C102: two runs of the program whose numbers are related one by one *)
From Verif Require Import Base Arith Helper Tensor Network Bincode Serial Spec SpecLayer SpecNet Float32.

(** Two computations with one outcome: both panic for the same reason, or both return and the results are related. *)
Definition outcome {A A'} (R : A -> A' -> Prop) (x : res A) (x' : res A') : Prop :=
  match x, x' with
  | Done a, Done a' => R a a'
  | Panic p, Panic p' => p = p'
  | _, _ => False
  end.

Section Two.
Context {F F' : Type} (rel : F -> F' -> Prop).

(** Same strides, same shape, related data. The tensors need not be well-formed. *)
Inductive like_tensor : tensor F -> tensor F' -> Prop :=
| like_t st s d d' : Forall2 rel d d' -> like_tensor (mkTensor st s d) (mkTensor st s d').

Inductive like_layer : layer F -> layer F' -> Prop :=
| like_fc w w' wg wg' wi wi' b b' bg bg' m m' name st :
    like_tensor w w' -> like_tensor wg wg' -> like_tensor wi wi' -> like_tensor b b' -> like_tensor bg bg' -> like_tensor m m' ->
    like_layer (LFC (mkFC w wg wi b bg m name st)) (LFC (mkFC w' wg' wi' b' bg' m' name st))
| like_conv k k' b b' kg kg' bg bg' stride m m' ins outs name st :
    Forall2 like_tensor k k' -> Forall2 like_tensor b b' -> Forall2 like_tensor kg kg' -> Forall2 like_tensor bg bg' -> like_tensor m m' ->
    like_layer (LConv (mkConv k b kg bg stride m ins outs name st)) (LConv (mkConv k' b' kg' bg' stride m' ins outs name st))
| like_maxpool l : like_layer (LMaxPool l) (LMaxPool l)
| like_softmax s name a a' b b' st : like_tensor a a' -> like_tensor b b' ->
    like_layer (LSoftmax (mkSM s name a b st)) (LSoftmax (mkSM s name a' b' st)).

Inductive like_net : network F -> network F' -> Prop :=
| like_n ls ls' s s' g g' ins outs st : Forall2 like_layer ls ls' -> Forall2 like_tensor s s' -> Forall2 like_tensor g g' ->
    like_net (mkNet ls s g ins outs st) (mkNet ls' s' g' ins outs st).

(** The same call, with related arguments. *)
Inductive like_op : net_op F -> net_op F' -> Prop :=
| like_add l l' : like_layer l l' -> like_op (OAdd l) (OAdd l')
| like_load fs name : like_op (OLoad fs name) (OLoad fs name)
| like_infer x x' : like_tensor x x' -> like_op (OInfer x) (OInfer x')
| like_backward g g' : like_tensor g g' -> like_op (OBackward g) (OBackward g')
| like_train : like_op OTrain OTrain
| like_inference : like_op OInference OInference.

(** What a call leaves behind: related networks and the same [Result]. *)
Definition like_answer (a : network F * result unit) (a' : network F' * result unit) : Prop :=
  like_net (fst a) (fst a') /\ snd a' = snd a.

End Two.

(** A sequence of calls, whatever each returns; a panic ends it. The results are collected. *)
Fixpoint history {F} {AR : Arith F} {BT : Bits F} (bm : build) (n : network F) (ops : list (net_op F)) : res (network F * list (result unit)) :=
  match ops with
  | [] => Done (n, [])
  | op :: ops => '(n1, r) <- run_op bm n op ;; '(n2, rs) <- history bm n1 ops ;; Done (n2, r :: rs)
  end.

(** The same bits, or both NaN. *)
Definition same_bits (x y : f32) : Prop := x = y \/ (isnan x = true /\ isnan y = true).

(** Platforms whose [exp] returns the same bits, and NaN for NaN. They may differ in the NaNs the operations produce and in which
    zero [max] returns. *)
Definition same_exp (e1 e2 : env) : Prop :=
  (forall x, env_exp e1 x = env_exp e2 x) /\ (forall x, isnan x = true -> isnan (env_exp e1 x) = true).
