(** * C102: the program treats all scalar types alike (a free theorem for the model) *)
From Coq Require Import ZifyBool ZifyNat ZifyN.
From Verif Require Import Base Arith Helper Tensor Convolution Network Bincode Serial Spec SpecLayer SpecNet SpecPlatform.

(** ** The language *)
Definition both {A A' B B'} (R : A -> A' -> Prop) (S : B -> B' -> Prop) (x : A * B) (y : A' * B') : Prop := R (fst x) (fst y) /\ S (snd x) (snd y).

Lemma o_bind {A A' B B'} (R : A -> A' -> Prop) (S : B -> B' -> Prop) x x' f f' :
  outcome R x x' -> (forall a a', R a a' -> outcome S (f a) (f' a')) -> outcome S (bind x f) (bind x' f').
Proof. destruct x, x'; cbn; intros H K; try contradiction; auto. Qed.

Lemma o_pure {A B B'} (S : B -> B' -> Prop) (x : res A) f f' : (forall a, x = Done a -> outcome S (f a) (f' a)) -> outcome S (bind x f) (bind x f').
Proof. destruct x; cbn; intros K; auto. Qed.

Lemma o_done {A A'} (R : A -> A' -> Prop) a a' : R a a' -> outcome R (Done a) (Done a').
Proof. intros H; exact H. Qed.

Lemma o_weak {A A'} (R S : A -> A' -> Prop) x x' : outcome R x x' -> (forall a a', R a a' -> S a a') -> outcome S x x'.
Proof. destruct x, x'; cbn; auto. Qed.

Lemma o_forM {A S S'} (R : S -> S' -> Prop) (l : list A) f f' : forall s s', R s s' ->
  (forall x s s', R s s' -> outcome R (f x s) (f' x s')) -> outcome R (forM l f s) (forM l f' s').
Proof. induction l as [|x l IH]; intros s s' H K; cbn [forM]; [exact H|]. eapply o_bind; [apply K, H|]. intros; apply IH; assumption. Qed.

Lemma o_forM2 {A A' S S'} (Q : A -> A' -> Prop) (R : S -> S' -> Prop) (l : list A) (l' : list A') f f' : Forall2 Q l l' -> forall s s', R s s' ->
  (forall x x' s s', Q x x' -> R s s' -> outcome R (f x s) (f' x' s')) -> outcome R (forM l f s) (forM l' f' s').
Proof. induction 1 as [|x x' l l' Hx _ IH]; intros s s' H K; cbn [forM]; [exact H|]. eapply o_bind; [apply K; eassumption|]. intros; apply IH; assumption. Qed.

Lemma o_for {S S'} (R : S -> S' -> Prop) lo hi f f' s s' : R s s' ->
  (forall x s s', R s s' -> outcome R (f x s) (f' x s')) -> outcome R (for_ lo hi f s) (for_ lo hi f' s').
Proof. intros H K. apply o_forM; assumption. Qed.

Lemma o_kji {S S'} (R : S -> S' -> Prop) sh f f' s s' : R s s' ->
  (forall i j k s s', R s s' -> outcome R (f i j k s) (f' i j k s')) -> outcome R (for_kji sh f s) (for_kji sh f' s').
Proof. intros H K. unfold for_kji. apply o_for; [exact H|]. intros. apply o_for; [assumption|]. intros. apply o_for; [assumption|]. intros. apply K; assumption. Qed.

Lemma o_tryM2 {A A' S S'} (Q : A -> A' -> Prop) (R : S -> S' -> Prop) (l : list A) (l' : list A') f f' : Forall2 Q l l' -> forall s s', R s s' ->
  (forall x x' s s', Q x x' -> R s s' -> outcome (both R eq) (f x s) (f' x' s')) -> outcome (both R eq) (tryM l f s) (tryM l' f' s').
Proof.
  induction 1 as [|x x' l l' Hx _ IH]; intros s s' H K; cbn [tryM]; [split; [exact H|reflexivity]|].
  eapply o_bind; [apply K; eassumption|]. intros [s1 r1] [s1' r1'] (H1 & E); cbn [fst snd] in *; subst r1'.
  destruct r1; [apply IH; assumption|]. split; [exact H1|reflexivity].
Qed.

Lemma Forall2_refl {A} (R : A -> A -> Prop) l : (forall x, R x x) -> Forall2 R l l.
Proof. intros H; induction l; constructor; auto. Qed.

Lemma o_tryM {A S S'} (R : S -> S' -> Prop) (l : list A) f f' s s' : R s s' ->
  (forall x s s', R s s' -> outcome (both R eq) (f x s) (f' x s')) -> outcome (both R eq) (tryM l f s) (tryM l f' s').
Proof. intros H K. eapply (o_tryM2 eq); [apply Forall2_refl; reflexivity|exact H|]. intros x x' t t' <- Ht. apply K, Ht. Qed.

Lemma Forall2_length {A A'} (R : A -> A' -> Prop) l l' : Forall2 R l l' -> length l = length l'.
Proof. induction 1; cbn; congruence. Qed.

Lemma o_len {A A'} (R : A -> A' -> Prop) l l' : Forall2 R l l' -> len l' = len l.
Proof. intros H. unfold len. rewrite (Forall2_length _ _ _ H). reflexivity. Qed.

Lemma o_nth {A A'} (R : A -> A' -> Prop) l l' n : Forall2 R l l' ->
  match nth_error l n, nth_error l' n with Some a, Some b => R a b | None, None => True | _, _ => False end.
Proof. intros H. revert n. induction H as [|a b l l' Hab _ IH]; intros [|n]; cbn; auto. apply IH. Qed.

Lemma o_vget {A A'} (R : A -> A' -> Prop) l l' i : Forall2 R l l' -> outcome R (vget l i) (vget l' i).
Proof.
  intros H. unfold vget. rewrite (o_len _ _ _ H). destruct (i <? len l); [|reflexivity].
  pose proof (o_nth R l l' (N.to_nat i) H) as Q. destruct (nth_error l _), (nth_error l' _); try contradiction; [exact Q|reflexivity].
Qed.

Lemma o_unwrap {A A'} (R : A -> A' -> Prop) l l' i : Forall2 R l l' -> outcome R (get_or_unwrap l i) (get_or_unwrap l' i).
Proof. intros H. unfold get_or_unwrap. pose proof (o_vget R l l' i H) as Q. destruct (vget l i), (vget l' i); cbn in *; try contradiction; auto. Qed.

Lemma o_set {A A'} (R : A -> A' -> Prop) l l' n x x' : Forall2 R l l' -> R x x' -> Forall2 R (list_set l n x) (list_set l' n x').
Proof. intros H Hx. revert n. induction H as [|a b l l' Hab Hl IH]; intros [|n]; cbn; constructor; auto. Qed.

Lemma o_vset {A A'} (R : A -> A' -> Prop) l l' i x x' : Forall2 R l l' -> R x x' -> outcome (Forall2 R) (vset l i x) (vset l' i x').
Proof. intros H Hx. unfold vset. rewrite (o_len _ _ _ H). destruct (i <? len l); [|reflexivity]. apply o_set; assumption. Qed.

Lemma o_zip_update {A A' B B'} (R : A -> A' -> Prop) (S : B -> B' -> Prop) f f' d d' s s' :
  (forall x x' y y', R x x' -> S y y' -> R (f x y) (f' x' y')) -> Forall2 R d d' -> Forall2 S s s' -> Forall2 R (zip_update f d s) (zip_update f' d' s').
Proof. intros K H. revert s s'. induction H as [|a b d d' Hab Hd IH]; intros s s' Hs; cbn; [constructor|]. destruct Hs; constructor; auto. Qed.

Lemma o_zip_with {A A' B B' C C'} (R : A -> A' -> Prop) (S : B -> B' -> Prop) (Q : C -> C' -> Prop) f f' d d' s s' :
  (forall x x' y y', R x x' -> S y y' -> Q (f x y) (f' x' y')) -> Forall2 R d d' -> Forall2 S s s' -> Forall2 Q (zip_with f d s) (zip_with f' d' s').
Proof. intros K H. revert s s'. induction H as [|a b d d' Hab Hd IH]; intros s s' Hs; cbn; [constructor|]. destruct Hs; constructor; auto. Qed.

Lemma o_map {A A' B B'} (R : A -> A' -> Prop) (S : B -> B' -> Prop) f f' d d' :
  (forall x x', R x x' -> S (f x) (f' x')) -> Forall2 R d d' -> Forall2 S (map f d) (map f' d').
Proof. intros K. induction 1; cbn; constructor; auto. Qed.

Lemma o_app {A A'} (R : A -> A' -> Prop) a a' b b' : Forall2 R a a' -> Forall2 R b b' -> Forall2 R (a ++ b)%list (a' ++ b')%list.
Proof. apply Forall2_app. Qed.

Lemma o_rev {A A'} (R : A -> A' -> Prop) l l' : Forall2 R l l' -> Forall2 R (rev l) (rev l').
Proof. induction 1; cbn; [constructor|]. apply Forall2_app; [assumption|]. repeat constructor; assumption. Qed.

Lemma o_repeat {A A'} (R : A -> A' -> Prop) x x' n : R x x' -> Forall2 R (repeat x n) (repeat x' n).
Proof. intros H; induction n; cbn; constructor; auto. Qed.

Lemma o_combine {A A' B} (R : A -> A' -> Prop) (b : list B) l l' : Forall2 R l l' ->
  Forall2 (fun p q => fst p = fst q /\ R (snd p) (snd q)) (combine b l) (combine b l').
Proof. intros H. revert b. induction H; intros [|z b]; cbn; constructor; auto. Qed.

(** ** The program *)
Section Free.
Context {F F' : Type} {AR : Arith F} {AR' : Arith F'} (bm : build).
Context (rel acc : F -> F' -> Prop).
Context (R0 : rel fzero fzero) (R1 : rel fone fone) (Rm : rel fmone fmone) (Ri : rel fninf fninf).
Context (RA : forall x x' y y', rel x x' -> rel y y' -> rel (fadd x y) (fadd x' y')).
Context (RM : forall x x' y y', rel x x' -> rel y y' -> rel (fmul x y) (fmul x' y')).
Context (RD : forall x x' y y', rel x x' -> rel y y' -> rel (fdiv x y) (fdiv x' y')).
Context (RG : forall x x' y y', rel x x' -> rel y y' -> fgtb x' y' = fgtb x y).
Context (RE : forall x x', rel x x' -> rel (fexp x) (fexp x')).
Context (A0 : acc fzero fzero) (AA : forall x x' y y', acc x x' -> rel y y' -> acc (fadd x y) (fadd x' y')).
Context (AI : forall x x', acc x x' -> rel x x') (AM : forall x x', acc x x' -> rel (fmax x fzero) (fmax x' fzero)).
Notation lt := (like_tensor rel).
Notation ll := (like_layer rel).

Lemma o_new s : outcome lt (tensor_new bm s) (tensor_new bm s).
Proof. unfold tensor_new. apply o_pure; intros n _. apply o_pure; intros t _. constructor. apply o_repeat, R0. Qed.

Lemma o_empty : outcome lt (tensor_empty bm) (tensor_empty bm).
Proof. apply o_new. Qed.

Lemma o_get t t' i : lt t t' -> outcome rel (data_get t i) (data_get t' i).
Proof. intros [? ? ? ? H]. apply o_vget, H. Qed.

Lemma o_data_set t t' i v v' : lt t t' -> rel v v' -> outcome lt (data_set t i v) (data_set t' i v').
Proof. intros [st s d d' H] Hv. unfold data_set. eapply o_bind; [apply o_vset; eassumption|]. intros. constructor. assumption. Qed.

Lemma o_shape t t' : lt t t' -> tshape t' = tshape t.
Proof. intros []; reflexivity. Qed.

Lemma o_index t t' x : lt t t' -> get_data_index bm t' x = get_data_index bm t x.
Proof. intros []; reflexivity. Qed.

Lemma o_set_item t t' x v v' : lt t t' -> rel v v' -> outcome lt (set_item bm t x v) (set_item bm t' x v').
Proof.
  intros H Hv. unfold set_item. rewrite (o_shape _ _ H), (o_index _ _ x H). destruct (fits_index _ _); [|exact H].
  apply o_pure; intros. apply o_data_set; assumption.
Qed.

Lemma o_get_item t t' x : lt t t' -> outcome rel (get_item bm t x) (get_item bm t' x).
Proof.
  intros H. unfold get_item. rewrite (o_shape _ _ H), (o_index _ _ x H). destruct (fits_index _ _); [|exact R0].
  apply o_pure; intros. apply o_get; assumption.
Qed.

Lemma o_fill t t' v v' : lt t t' -> rel v v' -> lt (fill_with_value t v) (fill_with_value t' v').
Proof. intros [st s d d' H] Hv. constructor. cbn [data]. eapply o_map; [|exact H]. auto. Qed.

Lemma o_add_self a a' b b' : lt a a' -> lt b b' -> lt (add_to_self a b) (add_to_self a' b').
Proof.
  intros [sta sa da da' Ha] [stb sb db db' Hb]. unfold add_to_self. cbn [tshape]. destruct (shape_eqb sa sb); constructor; cbn [data]; [|assumption].
  eapply o_zip_update; eauto.
Qed.

Lemma o_mul_self a a' b b' : lt a a' -> lt b b' -> lt (multiply_elementwise_self a b) (multiply_elementwise_self a' b').
Proof.
  intros [sta sa da da' Ha] [stb sb db db' Hb]. unfold multiply_elementwise_self. cbn [tshape]. destruct (shape_eqb sa sb); constructor; cbn [data]; [|assumption].
  eapply o_zip_update; eauto.
Qed.

Lemma o_mul_el a a' b b' c c' : lt a a' -> lt b b' -> lt c c' -> lt (multiply_elementwise a b c) (multiply_elementwise a' b' c').
Proof.
  intros [sta sa da da' Ha] [stb sb db db' Hb] [stc sc dc dc' Hc]. unfold multiply_elementwise. cbn [tshape].
  destruct (shape_eqb sa sb && shape_eqb sa sc)%bool; constructor; cbn [data]; [|assumption].
  eapply (o_zip_update rel rel); [auto|exact Hc|]. eapply o_zip_with; eauto.
Qed.

Lemma o_scale_self a a' c c' : lt a a' -> rel c c' -> lt (scale_self a c) (scale_self a' c').
Proof. intros [sta sa da da' Ha] Hc. constructor. cbn [data]. eapply o_map; [|exact Ha]. auto. Qed.

Lemma o_relu_loop i i' m m' : Forall2 rel i i' -> Forall2 rel m m' -> both (Forall2 rel) (Forall2 rel) (relu_mask_loop i m) (relu_mask_loop i' m').
Proof.
  intros H. revert m m'. induction H as [|x x' i i' Hx Hi IH]; intros m m' Hm; [split; [constructor|exact Hm]|].
  destruct Hm as [|y y' m m' Hy Hm]; [split; [constructor; assumption|constructor]|]. cbn [relu_mask_loop].
  pose proof (IH _ _ Hm) as (Q1 & Q2). destruct (relu_mask_loop i m), (relu_mask_loop i' m'). cbn [fst snd] in *.
  rewrite (RG _ _ _ _ Hx R0). destruct (fgtb x fzero); split; constructor; auto.
Qed.

Lemma o_relu t t' m m' : lt t t' -> lt m m' -> both (both lt lt) eq (relu_self_and_store_mask t m) (relu_self_and_store_mask t' m').
Proof.
  intros [sta sa da da' Ha] [stb sb db db' Hb]. unfold relu_self_and_store_mask, get_shape. cbn [tshape data].
  destruct (negb (shape_eqb sa sb)); [split; [split; constructor; assumption|reflexivity]|].
  pose proof (o_relu_loop _ _ _ _ Ha Hb) as (Q1 & Q2). destruct (relu_mask_loop da db), (relu_mask_loop da' db'). cbn [fst snd] in *.
  split; [split; constructor; assumption|reflexivity].
Qed.

Lemma o_dot n a a' b b' i1 i2 : lt a a' -> lt b b' -> outcome acc (dot_loop bm n a b i1 i2) (dot_loop bm n a' b' i1 i2).
Proof.
  intros Ha Hb. unfold dot_loop. apply o_for; [exact A0|]. intros x s s' Hs. rewrite (o_index _ _ _ Ha), (o_index _ _ _ Hb).
  apply o_pure; intros. apply o_pure; intros. eapply o_bind; [apply o_get; exact Ha|]. intros. eapply o_bind; [apply o_get; exact Hb|]. intros.
  apply o_done. auto.
Qed.

Lemma o_mm_first a a' b b' c c' : lt a a' -> lt b b' -> lt c c' ->
  outcome (both lt eq) (matrix_multiply_transpose_first bm a b c) (matrix_multiply_transpose_first bm a' b' c').
Proof.
  intros Ha Hb Hc. unfold matrix_multiply_transpose_first, get_shape. rewrite (o_shape _ _ Ha), (o_shape _ _ Hb), (o_shape _ _ Hc).
  destruct (negb _); [split; [exact Hc|reflexivity]|]. eapply o_bind; [|intros ? ? H; split; [exact H|reflexivity]].
  apply o_kji; [exact Hc|]. intros i j k s s' Hs. eapply o_bind; [apply o_dot; eassumption|]. intros v v' Hv. rewrite (o_index _ _ _ Hs).
  apply o_pure; intros. apply o_data_set; auto.
Qed.

Lemma o_mm_second a a' b b' c c' : lt a a' -> lt b b' -> lt c c' ->
  outcome (both lt eq) (matrix_multiply_transpose_second bm a b c) (matrix_multiply_transpose_second bm a' b' c').
Proof.
  intros Ha Hb Hc. unfold matrix_multiply_transpose_second, get_shape. rewrite (o_shape _ _ Ha), (o_shape _ _ Hb), (o_shape _ _ Hc).
  destruct (negb _); [split; [exact Hc|reflexivity]|]. eapply o_bind; [|intros ? ? H; split; [exact H|reflexivity]].
  apply o_kji; [exact Hc|]. intros i j k s s' Hs. eapply o_bind; [apply o_dot; eassumption|]. intros v v' Hv. rewrite (o_index _ _ _ Hs).
  apply o_pure; intros. apply o_data_set; auto.
Qed.

Lemma o_mm a a' b b' c c' : lt a a' -> lt b b' -> lt c c' -> outcome lt (matrix_multiply bm a b c) (matrix_multiply bm a' b' c').
Proof.
  intros Ha Hb Hc. unfold matrix_multiply, get_shape. rewrite (o_shape _ _ Ha), (o_shape _ _ Hb), (o_shape _ _ Hc).
  destruct (check_matrix_multiply_dimensions _ _ _); [|exact Hc].
  apply o_kji; [exact Hc|]. intros i j k s s' Hs. eapply o_bind; [apply o_dot; eassumption|]. intros v v' Hv. rewrite (o_index _ _ _ Hs).
  apply o_pure; intros. apply o_data_set; auto.
Qed.

Lemma o_mmar x x' w w' b b' c c' : lt x x' -> lt w w' -> lt b b' -> lt c c' ->
  outcome lt (matrix_multiply_add_relu bm x w b c) (matrix_multiply_add_relu bm x' w' b' c').
Proof.
  intros Hx Hw Hb Hc. unfold matrix_multiply_add_relu, get_shape. rewrite (o_shape _ _ Hx), (o_shape _ _ Hw), (o_shape _ _ Hb), (o_shape _ _ Hc).
  destruct (check_matrix_multiply_dimensions _ _ _); [|exact Hc]. destruct (shape_eqb _ _); [|exact Hc].
  apply o_kji; [exact Hc|]. intros i j k s s' Hs. eapply o_bind; [apply o_dot; eassumption|]. intros v v' Hv. rewrite (o_index _ _ _ Hs), (o_index _ _ _ Hb).
  apply o_pure; intros. apply o_pure; intros. eapply o_bind; [apply o_get; exact Hb|]. intros. apply o_data_set; auto.
Qed.

Lemma o_max_pool x x' mask st c c' : lt x x' -> lt c c' -> outcome lt (max_pool bm x mask st c) (max_pool bm x' mask st c').
Proof.
  intros Hx Hc. unfold max_pool, get_shape. rewrite (o_shape _ _ Hx), (o_shape _ _ Hc). apply o_pure; intros ok _. destruct ok; [|exact Hc].
  apply o_kji; [exact Hc|]. intros i j k s s' Hs. eapply (o_bind rel).
  - apply o_for; [exact Ri|]. intros. apply o_for; [assumption|]. intros. apply o_pure; intros. eapply o_bind; [apply o_get_item; exact Hx|].
    intros. cbn. erewrite RG by eassumption. destruct (fgtb _ _); assumption.
  - intros. apply o_set_item; assumption.
Qed.

Lemma o_track x x' mask st c c' o : lt x x' -> lt c c' ->
  outcome (both (both lt eq) eq) (max_pool_track_origin bm x mask st c o) (max_pool_track_origin bm x' mask st c' o).
Proof.
  intros Hx Hc. unfold max_pool_track_origin, get_shape. rewrite (o_shape _ _ Hx), (o_shape _ _ Hc). apply o_pure; intros ok _.
  destruct ok; cbn [negb]; [|split; [split; [exact Hc|reflexivity]|reflexivity]].
  apply o_pure; intros n _. destruct (negb _); [split; [split; [exact Hc|reflexivity]|reflexivity]|].
  eapply (o_bind (both lt eq)).
  - apply o_kji; [split; [exact Hc|reflexivity]|]. intros i j k [s o1] [s' o1'] (Hs & E). cbn [fst snd] in *. subst o1'. rewrite (o_index _ _ _ Hs).
    apply o_pure; intros q _. eapply (o_bind (both rel eq)).
    + apply o_for; [split; [exact Ri|reflexivity]|]. intros. apply o_for; [assumption|]. intros ii [m1 q1] [m1' q1'] (Hm & E). cbn [fst snd] in *. subst q1'.
      apply o_pure; intros p _. eapply o_bind; [apply o_get_item; exact Hx|]. intros v v' Hv. rewrite (RG _ _ _ _ Hv Hm), (o_index _ _ _ Hx).
      destruct (fgtb _ _); [|split; [exact Hm|reflexivity]]. apply o_pure; intros. split; [exact Hv|reflexivity].
    + intros [m1 q1] [m1' q1'] (Hm & E). cbn [fst snd] in *. subst q1'. eapply o_bind; [apply o_set_item; eassumption|]. intros s1 s1' Hs1.
      apply o_pure; intros. split; [exact Hs1|reflexivity].
  - intros [s o1] [s' o1'] (Hs & E). cbn [fst snd] in *. subst o1'. split; [split; [exact Hs|reflexivity]|reflexivity].
Qed.

Lemma o_softmax x x' c c' : lt x x' -> lt c c' -> outcome lt (softmax x c) (softmax x' c').
Proof.
  intros Hx Hc. unfold softmax, get_shape. rewrite (o_shape _ _ Hx), (o_shape _ _ Hc). destruct (shape_eqb _ _); [|exact Hc].
  assert (L : len (data x') = len (data x)) by (destruct Hx as [? ? ? ? Hd]; apply (o_len _ _ _ Hd)). rewrite L.
  eapply (o_bind (both lt rel)).
  - apply o_for; [split; assumption|]. intros i [s u] [s' u'] (Hs & Hu). cbn [fst snd] in *. eapply o_bind; [apply o_get; exact Hx|]. intros v v' Hv. cbv zeta.
    eapply o_bind; [apply o_data_set; [exact Hs|apply RE, Hv]|]. intros. split; cbn [fst snd]; auto.
  - intros [s u] [s' u'] (Hs & Hu). cbn [fst snd] in *. destruct Hs as [? ? ? ? Hd]. constructor. cbn [data]. eapply o_map; [|exact Hd]. auto.
Qed.

Lemma o_from_list a a' b b' l : lt a a' -> lt b b' -> outcome (both lt eq) (add_from_index_list bm a b l) (add_from_index_list bm a' b' l).
Proof.
  intros Ha Hb. unfold add_from_index_list, get_shape. rewrite (o_shape _ _ Ha), (o_shape _ _ Hb). apply o_pure; intros n1 _.
  destruct (n1 <? len l); [split; [exact Hb|reflexivity]|]. apply o_pure; intros n2 _. apply o_tryM; [exact Hb|].
  intros [p q] s s' Hs. destruct (n2 <=? q); [split; [exact Hs|reflexivity]|].
  eapply o_bind; [apply o_get; exact Hs|]. intros. eapply o_bind; [apply o_get; exact Ha|]. intros. eapply o_bind; [apply o_data_set; [exact Hs|auto]|].
  intros ? ? H2. split; [exact H2|reflexivity].
Qed.

Lemma o_window x x' k k' st i j : lt x x' -> lt k k' -> outcome acc (conv_window bm x k st i j) (conv_window bm x' k' st i j).
Proof.
  intros Hx Hk. unfold conv_window, get_shape. rewrite (o_shape _ _ Hk). do 2 (apply o_pure; intros). apply o_kji; [exact A0|]. intros p q r s s' Hs.
  rewrite (o_index _ _ _ Hk). do 3 (apply o_pure; intros). rewrite (o_index _ _ _ Hx). apply o_pure; intros.
  eapply o_bind; [apply o_get; exact Hx|]. intros. eapply o_bind; [apply o_get; exact Hk|]. intros. apply o_done. auto.
Qed.

Lemma o_conv_bias x x' k k' b b' st c c' ch : lt x x' -> lt k k' -> lt b b' -> lt c c' ->
  outcome (both lt eq) (convolution_bias bm x k b st c ch) (convolution_bias bm x' k' b' st c' ch).
Proof.
  intros Hx Hk Hb Hc. unfold convolution_bias, get_shape. rewrite (o_shape _ _ Hx), (o_shape _ _ Hk), (o_shape _ _ Hb), (o_shape _ _ Hc).
  apply o_pure; intros r _. destruct r; [|split; [exact Hc|reflexivity]]. cbv zeta. destruct (_ || _ || _)%bool; [split; [exact Hc|reflexivity]|].
  eapply o_bind; [apply o_get_item; exact Hb|]. intros v v' Hv. eapply (o_bind lt); [|intros ? ? H2; split; [exact H2|reflexivity]].
  apply o_for; [exact Hc|]. intros j t t' Ht. apply o_for; [exact Ht|]. intros i s s' Hs. eapply o_bind; [apply o_window; eassumption|]. intros w w' Hw.
  rewrite (o_index _ _ _ Hs). apply o_pure; intros. apply o_data_set; auto.
Qed.

Lemma o_conv_relu x x' k k' b b' st c c' ch : lt x x' -> lt k k' -> lt b b' -> lt c c' ->
  outcome (both lt eq) (convolution_bias_relu bm x k b st c ch) (convolution_bias_relu bm x' k' b' st c' ch).
Proof.
  intros Hx Hk Hb Hc. unfold convolution_bias_relu, get_shape. rewrite (o_shape _ _ Hx), (o_shape _ _ Hk), (o_shape _ _ Hb), (o_shape _ _ Hc).
  apply o_pure; intros r _. destruct r; [|split; [exact Hc|reflexivity]]. cbv zeta. destruct (_ || _ || _)%bool; [split; [exact Hc|reflexivity]|].
  eapply o_bind; [apply o_get_item; exact Hb|]. intros v v' Hv. eapply (o_bind lt); [|intros ? ? H2; split; [exact H2|reflexivity]].
  apply o_for; [exact Hc|]. intros j t t' Ht. apply o_for; [exact Ht|]. intros i s s' Hs. eapply o_bind; [apply o_window; eassumption|]. intros w w' Hw.
  rewrite (o_index _ _ _ Hs). apply o_pure; intros. apply o_data_set; auto.
Qed.

Lemma o_outgoing g g' ks ks' st c c' : lt g g' -> Forall2 lt ks ks' -> lt c c' ->
  outcome (both lt eq) (convolution_backprop_outgoing_gradient bm g ks st c) (convolution_backprop_outgoing_gradient bm g' ks' st c').
Proof.
  intros Hg Hk Hc. unfold convolution_backprop_outgoing_gradient, get_shape. rewrite (o_shape _ _ Hg), (o_shape _ _ Hc), (o_len _ _ _ Hk).
  eapply (o_bind (both eq eq)).
  - eapply o_tryM2; [apply o_combine, Hk|reflexivity|]. intros [i k] [i' k'] u u' (E & Hkk) _. cbn [fst snd] in *. subst i'. rewrite (o_shape _ _ Hkk).
    apply o_pure; intros. split; reflexivity.
  - intros [u r] [u' r'] (_ & E). cbn [snd] in E. subst r'. destruct r; [|split; [exact Hc|reflexivity]]. destruct (negb _); [split; [exact Hc|reflexivity]|].
    eapply (o_bind lt); [|intros ? ? H2; split; [exact H2|reflexivity]].
    apply o_kji; [exact Hc|]. intros p q r s s' Hs. eapply (o_bind acc).
    + apply o_for; [exact A0|]. intros k v v' Hv. eapply o_bind; [apply o_vget, Hk|]. intros kt kt' Hkt. cbv zeta. rewrite (o_shape _ _ Hkt).
      apply o_pure; intros [i0 i1] _. apply o_pure; intros [j0 j1] _. apply o_for; [exact Hv|]. intros. apply o_for; [assumption|]. intros.
      rewrite (o_index _ _ _ Hg). do 5 (apply o_pure; intros). rewrite (o_index _ _ _ Hkt). apply o_pure; intros.
      eapply o_bind; [apply o_get; exact Hkt|]. intros. eapply o_bind; [apply o_get; exact Hg|]. intros. apply o_done. auto.
    + intros v v' Hv. rewrite (o_index _ _ _ Hs). apply o_pure; intros. apply o_data_set; auto.
Qed.

Lemma o_kernel g g' x x' st ch c c' : lt g g' -> lt x x' -> lt c c' ->
  outcome (both lt eq) (convolution_backprop_kernel bm g x st ch c) (convolution_backprop_kernel bm g' x' st ch c').
Proof.
  intros Hg Hx Hc. unfold convolution_backprop_kernel, get_shape. rewrite (o_shape _ _ Hg), (o_shape _ _ Hx), (o_shape _ _ Hc).
  apply o_pure; intros r _. destruct r; [|split; [exact Hc|reflexivity]]. eapply (o_bind lt); [|intros ? ? H2; split; [exact H2|reflexivity]].
  apply o_kji; [exact Hc|]. intros l m n s s' Hs. eapply (o_bind acc).
  - apply o_kji; [exact A0|]. intros. rewrite (o_index _ _ _ Hg). do 5 (apply o_pure; intros). rewrite (o_index _ _ _ Hx). apply o_pure; intros.
    eapply o_bind; [apply o_get; exact Hx|]. intros. eapply o_bind; [apply o_get; exact Hg|]. intros. apply o_done. auto.
  - intros v v' Hv. rewrite (o_index _ _ _ Hs). apply o_pure; intros. apply o_data_set; auto.
Qed.

(** ** Layers *)
Notation answer := (both (both ll lt) eq).

Lemma o_forward l l' x x' c c' : ll l l' -> lt x x' -> lt c c' -> outcome answer (forward bm l x c) (forward bm l' x' c').
Proof.
  intros [w w' wg wg' wi wi' b b' bg bg' m m' name st Hw Hwg Hwi Hb Hbg Hm|k k' b b' kg kg' bg bg' stride m m' ins outs name st Hk Hb Hkg Hbg Hm|l0|s name a a' b b' st Ha Hb] Hx Hc;
    cbn [forward]; unfold lift3.
  - eapply (o_bind (both (both (fun l l' => ll (LFC l) (LFC l')) lt) eq)); [|intros [[? ?] ?] [[? ?] ?] ((? & ?) & ?); cbn [fst snd] in *; subst; repeat split; assumption].
    unfold fc_forward. cbn [fc_run_state fc_weights fc_weights_gradients fc_weights_gradients_intermediate fc_bias fc_bias_gradients fc_relu_mask fc_name]. destruct st.
    + eapply o_bind; [apply o_mmar; eassumption|]. intros. split; [split|]; cbn [fst snd]; [constructor; assumption|assumption|reflexivity].
    + eapply o_bind; [apply o_mm; eassumption|]. intros o o' Ho. pose proof (o_relu _ _ _ _ (o_add_self _ _ _ _ Ho Hb) Hm) as ((Q1 & Q2) & Q3).
      cbv zeta. destruct (relu_self_and_store_mask _ _) as [[? ?] ?], (relu_self_and_store_mask (add_to_self o' b') m') as [[? ?] ?]. cbn [fst snd] in *. subst.
      split; [split|]; cbn [fst snd]; [constructor; assumption|assumption|reflexivity].
  - eapply (o_bind (both (both (fun l l' => ll (LConv l) (LConv l')) lt) eq)); [|intros [[? ?] ?] [[? ?] ?] ((? & ?) & ?); cbn [fst snd] in *; subst; repeat split; assumption].
    unfold cv_forward. cbn [cv_run_state cv_kernels cv_biases cv_stride cv_output_shape cv_relu_mask]. destruct st.
    + eapply (o_bind (both lt eq)).
      * apply o_tryM; [exact Hc|]. intros i s s' Hs. eapply o_bind; [apply o_vget, Hk|]. intros. eapply o_bind; [apply o_vget, Hb|]. intros. apply o_conv_relu; assumption.
      * intros [? ?] [? ?] (? & ?). cbn [fst snd] in *. subst. split; [split|]; cbn [fst snd]; [constructor; assumption|assumption|reflexivity].
    + eapply (o_bind (both lt eq)).
      * apply o_tryM; [exact Hc|]. intros i s s' Hs. eapply o_bind; [apply o_vget, Hk|]. intros. eapply o_bind; [apply o_vget, Hb|]. intros. apply o_conv_bias; assumption.
      * intros [o r] [o' r'] (Ho & Er). cbn [fst snd] in *. subst r'. destruct r; [|split; [split|]; cbn [fst snd]; [constructor; assumption|assumption|reflexivity]].
        pose proof (o_relu _ _ _ _ Ho Hm) as ((Q1 & Q2) & Q3).
        destruct (relu_self_and_store_mask _ _) as [[? ?] ?], (relu_self_and_store_mask o' m') as [[? ?] ?]. cbn [fst snd] in *. subst.
        split; [split|]; cbn [fst snd]; [constructor; assumption|assumption|reflexivity].
  - eapply (o_bind (both (both eq lt) eq)); [|intros [[? ?] ?] [[? ?] ?] ((? & ?) & ?); cbn [fst snd] in *; subst; split; [split|]; cbn [fst snd]; [constructor|assumption|reflexivity]].
    unfold mp_forward. destruct (mp_run_state l0).
    + eapply o_bind; [apply o_max_pool; eassumption|]. intros. repeat split; assumption.
    + eapply o_bind; [apply o_track; eassumption|]. intros [[? ?] ?] [[? ?] ?] ((? & ?) & ?); cbn [fst snd] in *; subst. repeat split; assumption.
  - eapply (o_bind (both (both (fun l l' => ll (LSoftmax l) (LSoftmax l')) lt) eq)); [|intros [[? ?] ?] [[? ?] ?] ((? & ?) & ?); cbn [fst snd] in *; subst; repeat split; assumption].
    unfold sm_forward. eapply o_bind; [apply o_softmax; eassumption|]. intros. split; [split|]; cbn [fst snd]; [constructor; assumption|assumption|reflexivity].
Qed.

Ltac ans := split; [split|]; cbn [fst snd]; [constructor; assumption|assumption|reflexivity].

Lemma o_backward l l' x x' y y' g g' c c' : ll l l' -> lt x x' -> lt y y' -> lt g g' -> lt c c' ->
  outcome answer (backward bm l x y g c) (backward bm l' x' y' g' c').
Proof.
  intros [w w' wg wg' wi wi' b b' bg bg' m m' name st Hw Hwg Hwi Hb Hbg Hm|k k' b b' kg kg' bg bg' stride m m' ins outs name st Hk Hb Hkg Hbg Hm|l0|s name a a' b b' st Ha Hb] Hx Hy Hg Hc;
    cbn [backward]; unfold lift3.
  - eapply (o_bind (both (both (fun l l' => ll (LFC l) (LFC l')) lt) eq)); [|intros [[? ?] ?] [[? ?] ?] ((? & ?) & ?); cbn [fst snd] in *; subst; repeat split; assumption].
    unfold fc_backward. cbn [fc_run_state fc_weights fc_weights_gradients fc_weights_gradients_intermediate fc_bias fc_bias_gradients fc_relu_mask fc_name].
    destruct (run_state_eqb st Training); [|ans]. cbv zeta. pose proof (o_mul_self _ _ _ _ Hm Hg) as Hmg. pose proof (o_add_self _ _ _ _ Hbg Hmg) as Hbg2.
    eapply o_bind; [apply o_mm_second; eassumption|]. intros [wi2 r] [wi2' r'] (H2 & E). cbn [fst snd] in *. subst r'. destruct r; [|ans].
    pose proof (o_add_self _ _ _ _ Hwg H2). eapply o_bind; [apply o_mm_first; eassumption|]. intros [og r] [og' r'] (H3 & E). cbn [fst snd] in *. subst r'. ans.
  - eapply (o_bind (both (both (fun l l' => ll (LConv l) (LConv l')) lt) eq)); [|intros [[? ?] ?] [[? ?] ?] ((? & ?) & ?); cbn [fst snd] in *; subst; repeat split; assumption].
    unfold cv_backward, cv_set_mask, cv_set_kernel_gradients. cbv zeta.
    cbn [cv_kernels cv_biases cv_kernel_gradients cv_bias_gradients cv_stride cv_relu_mask cv_input_shape cv_output_shape cv_name cv_run_state].
    pose proof (o_mul_self _ _ _ _ Hm Hg) as Hmg. rewrite (o_len _ _ _ Hk). eapply (o_bind (both (Forall2 lt) eq)).
    + apply o_tryM; [exact Hkg|]. intros i s s' Hs. eapply o_bind; [apply o_vget, Hs|]. intros. eapply o_bind; [apply o_kernel; eassumption|].
      intros [? r] [? r'] (? & E). cbn [fst snd] in *. subst r'. eapply o_bind; [apply o_vset; eassumption|]. intros ? ? ?. split; [assumption|reflexivity].
    + intros [kg2 r] [kg2' r'] (? & E). cbn [fst snd] in *. subst r'. destruct r; [|ans].
      eapply o_bind; [apply o_outgoing; eassumption|]. intros [? r] [? r'] (? & E). cbn [fst snd] in *. subst r'. ans.
  - eapply (o_bind (both (both eq lt) eq)); [|intros [[? ?] ?] [[? ?] ?] ((? & ?) & ?); cbn [fst snd] in *; subst; split; [split|]; cbn [fst snd]; [constructor|assumption|reflexivity]].
    unfold mp_backward. cbv zeta. eapply o_bind; [apply o_from_list; [exact Hg|apply o_fill; assumption]|]. intros [? r] [? r'] (? & E). cbn [fst snd] in *. subst r'. repeat split; assumption.
  - eapply (o_bind (both (both (fun l l' => ll (LSoftmax l) (LSoftmax l')) lt) eq)); [|intros [[? ?] ?] [[? ?] ?] ((? & ?) & ?); cbn [fst snd] in *; subst; repeat split; assumption].
    unfold sm_backward. cbn [sm_run_state sm_shape sm_name sm_intermediate1 sm_intermediate2]. destruct (run_state_eqb st Inference); [ans|].
    eapply o_bind; [apply o_mm_first; eassumption|]. intros [i1 r] [i1' r'] (H2 & E). cbn [fst snd] in *. subst r'. destruct r; [|ans]. cbv zeta.
    pose proof (o_scale_self _ _ _ _ H2 Rm) as H3. eapply o_bind; [apply o_mm; eassumption|]. intros i2 i2' H4.
    pose proof (o_add_self _ _ _ _ (o_mul_el _ _ _ _ _ _ Hy Hg Hc) H4). ans.
Qed.

Lemma o_list_new (ls : list (tensor F)) ls' : Forall2 lt ls ls' ->
  outcome (Forall2 lt) (forM ls (fun k acc => g <- tensor_new bm (get_shape k) ;; Done (acc ++ [g])%list) [])
    (forM ls' (fun k acc => g <- tensor_new bm (get_shape k) ;; Done (acc ++ [g])%list) []).
Proof.
  intros H. eapply o_forM2; [exact H|constructor|]. intros t t' s s' Ht Hs. unfold get_shape. rewrite (o_shape _ _ Ht). eapply o_bind; [apply o_new|].
  intros. apply o_done, Forall2_app; [assumption|]. repeat constructor; assumption.
Qed.

Lemma o_switch st l l' : ll l l' ->
  outcome ll (match st with Inference => switch_to_inference bm l | Training => switch_to_training bm l end)
    (match st with Inference => switch_to_inference bm l' | Training => switch_to_training bm l' end).
Proof.
  intros [w w' wg wg' wi wi' b b' bg bg' m m' name st0 Hw Hwg Hwi Hb Hbg Hm|k k' b b' kg kg' bg bg' stride m m' ins outs name st0 Hk Hb Hkg Hbg Hm|l0|s name a a' b b' st0 Ha Hb];
    destruct st; cbn [switch_to_inference switch_to_training]; unfold lift1;
    unfold fc_switch_to_inference, fc_switch_to_training, fc_update, fc_set_run_state, fc_clear_gradients, cv_switch_to_inference, cv_switch_to_training, cv_update, cv_set_run_state,
      sm_switch_to_inference, sm_switch_to_training, sm_update, sm_set_run_state, sm_clear_gradients, fc_output_shape, get_shape;
    cbn [fc_run_state fc_weights fc_weights_gradients fc_weights_gradients_intermediate fc_bias fc_bias_gradients fc_relu_mask fc_name
      cv_kernels cv_biases cv_kernel_gradients cv_bias_gradients cv_stride cv_relu_mask cv_input_shape cv_output_shape cv_name cv_run_state
      sm_run_state sm_shape sm_name sm_intermediate1 sm_intermediate2].
  - eapply (o_bind (fun l l' => ll (LFC l) (LFC l'))); [|intros; assumption]. do 4 (eapply o_bind; [apply o_empty|]; intros). constructor; assumption.
  - rewrite (o_shape _ _ Hw), (o_shape _ _ Hb). eapply (o_bind (fun l l' => ll (LFC l) (LFC l'))); [|intros; assumption].
    do 4 (eapply o_bind; [apply o_new|]; intros). constructor; try apply o_fill; assumption.
  - eapply (o_bind (fun l l' => ll (LConv l) (LConv l'))); [|intros; assumption]. eapply o_bind; [apply o_empty|]. intros. constructor; try assumption; constructor.
  - eapply (o_bind (fun l l' => ll (LConv l) (LConv l'))); [|intros; assumption]. eapply o_bind; [apply o_list_new, Hk|]. intros.
    eapply o_bind; [apply o_new|]. intros. cbv zeta. eapply o_bind; [apply o_new|]. intros. rewrite <- (Forall2_length _ _ _ Hk). constructor; try assumption. apply o_repeat; assumption.
  - apply o_pure; intros. constructor.
  - apply o_pure; intros. constructor.
  - eapply (o_bind (fun l l' => ll (LSoftmax l) (LSoftmax l'))); [|intros; assumption]. do 2 (eapply o_bind; [apply o_empty|]; intros). constructor; assumption.
  - eapply (o_bind (fun l l' => ll (LSoftmax l) (LSoftmax l'))); [|intros; assumption]. do 2 (eapply o_bind; [apply o_new|]; intros). constructor; apply o_fill; assumption.
Qed.

Lemma o_in l l' : ll l l' -> get_input_shape l' = get_input_shape l.
Proof. intros []; cbn; try reflexivity. unfold fc_input_shape, get_shape. cbn. rewrite (o_shape w w') by assumption. reflexivity. Qed.

Lemma o_out l l' : ll l l' -> get_output_shape l' = get_output_shape l.
Proof. intros []; cbn; try reflexivity. unfold fc_output_shape, get_shape. cbn. apply o_shape. assumption. Qed.

(** ** Networks *)
Lemma o_add_layer n n' l l' : like_net rel n n' -> ll l l' -> outcome (both (like_net rel) eq) (add_layer bm n l) (add_layer bm n' l').
Proof.
  intros [ls ls' s s' g g' ins outs st Hl Hs Hg] Hn. unfold add_layer. cbn [net_run_state layers intermediate_states intermediate_gradients net_input_shape net_output_shape].
  eapply o_bind; [apply o_switch, Hn|]. intros m m' Hm. rewrite (o_in _ _ Hm), (o_out _ _ Hm). cbv zeta.
  destruct (o_rev _ _ _ Hl) as [|z z' r r' Hz _].
  - eapply o_bind; [apply o_new|]. intros. eapply o_bind; [apply o_new|]. intros. eapply (o_bind (Forall2 lt)).
    + destruct (run_state_eqb st Training); [|exact Hg]. eapply o_bind; [apply o_new|]. intros. eapply o_bind; [apply o_new|]. intros. apply o_done, Forall2_app; [exact Hg|].
      repeat constructor; assumption.
    + intros. split; [|reflexivity]. cbn [fst]. constructor; [| |assumption]; apply Forall2_app; try assumption; repeat constructor; assumption.
  - rewrite (o_out _ _ Hz). destruct (negb _); [split; [constructor; assumption|reflexivity]|]. eapply o_bind; [apply o_new|]. intros. eapply (o_bind (Forall2 lt)).
    + destruct (run_state_eqb st Training); [|exact Hg]. eapply o_bind; [apply o_new|]. intros. apply o_done, Forall2_app; [exact Hg|]. repeat constructor; assumption.
    + intros. split; [|reflexivity]. cbn [fst]. constructor; [| |assumption]; apply Forall2_app; try assumption; repeat constructor; assumption.
Qed.

Lemma o_infer n n' x x' : like_net rel n n' -> lt x x' -> outcome (both (like_net rel) eq) (infer bm n x) (infer bm n' x').
Proof.
  intros [ls ls' s s' g g' ins outs st Hl Hs Hg] Hx. unfold infer, get_shape. cbn [net_run_state layers intermediate_states intermediate_gradients net_input_shape net_output_shape].
  rewrite (o_shape _ _ Hx), (o_len _ _ _ Hs), (o_len _ _ _ Hl). destruct (negb _); [split; [constructor; assumption|reflexivity]|].
  destruct (len s <? 2); [split; [constructor; assumption|reflexivity]|]. eapply o_bind; [apply o_vset; eassumption|]. intros s1 s1' Hs1.
  eapply (o_bind (both (both (Forall2 ll) (Forall2 lt)) eq)).
  - apply o_tryM; [split; assumption|]. intros i [ls1 t1] [ls1' t1'] (H1 & H2). cbn [fst snd] in *. unfold infer_step.
    eapply o_bind; [apply o_vget, H1|]. intros. eapply o_bind; [apply o_unwrap, H2|]. intros. eapply o_bind; [apply o_unwrap, H2|]. intros.
    eapply o_bind; [apply o_forward; eassumption|]. intros [[? ?] ?] [[? ?] ?] ((? & ?) & ?). cbn [fst snd] in *. subst.
    eapply o_bind; [apply o_vset; eassumption|]. intros. eapply o_bind; [apply o_vset; eassumption|]. intros. repeat split; assumption.
  - intros [[? ?] ?] [[? ?] ?] ((? & ?) & ?). cbn [fst snd] in *. subst. split; [constructor; assumption|reflexivity].
Qed.

Lemma o_net_backward n n' x x' : like_net rel n n' -> lt x x' -> outcome (both (like_net rel) eq) (net_backward bm n x) (net_backward bm n' x').
Proof.
  intros [ls ls' s s' g g' ins outs st Hl Hs Hg] Hx. unfold net_backward, get_shape. cbn [net_run_state layers intermediate_states intermediate_gradients net_input_shape net_output_shape].
  rewrite (o_shape _ _ Hx), (o_len _ _ _ Hl). destruct (negb _); [split; [constructor; assumption|reflexivity]|].
  destruct (len ls <? 1); [split; [constructor; assumption|reflexivity]|]. destruct (negb _); [split; [constructor; assumption|reflexivity]|].
  eapply o_bind; [apply o_vset; eassumption|]. intros g1 g1' Hg1.
  eapply (o_bind (both (both (Forall2 ll) (Forall2 lt)) eq)).
  - apply o_tryM; [split; assumption|]. intros i [ls1 t1] [ls1' t1'] (H1 & H2). cbn [fst snd] in *. unfold backward_step.
    eapply o_bind; [apply o_vget, H1|]. intros. eapply o_bind; [apply o_unwrap, H2|]. intros. eapply o_bind; [apply o_unwrap, H2|]. intros.
    eapply o_bind; [apply o_vget, Hs|]. intros. eapply o_bind; [apply o_vget, Hs|]. intros.
    eapply o_bind; [apply o_backward; eassumption|]. intros [[? ?] ?] [[? ?] ?] ((? & ?) & ?). cbn [fst snd] in *. subst.
    eapply o_bind; [apply o_vset; eassumption|]. intros. eapply o_bind; [apply o_vset; eassumption|]. intros. repeat split; assumption.
  - intros [[? ?] ?] [[? ?] ?] ((? & ?) & ?). cbn [fst snd] in *. subst. split; [constructor; assumption|reflexivity].
Qed.

Lemma o_map_layers st ls ls' : Forall2 ll ls ls' ->
  outcome (Forall2 ll) (map_layers (match st with Inference => switch_to_inference bm | Training => switch_to_training bm end) ls)
    (map_layers (match st with Inference => switch_to_inference bm | Training => switch_to_training bm end) ls').
Proof.
  intros H. unfold map_layers. eapply o_forM2; [exact H|constructor|]. intros l l' s s' Hl Hs. eapply o_bind.
  { pose proof (o_switch st l l' Hl) as Q. destruct st; exact Q. }
  intros. apply o_done, Forall2_app; [assumption|]. repeat constructor; assumption.
Qed.

Lemma o_train n n' : like_net rel n n' -> outcome (like_net rel) (net_switch_to_training bm n) (net_switch_to_training bm n').
Proof.
  intros [ls ls' s s' g g' ins outs st Hl Hs Hg]. unfold net_switch_to_training. cbn [net_run_state layers intermediate_states intermediate_gradients net_input_shape net_output_shape].
  eapply o_bind; [apply (o_map_layers Training), Hl|]. intros. eapply o_bind; [apply o_list_new, Hs|]. intros. constructor; assumption.
Qed.

Lemma o_inference n n' : like_net rel n n' -> outcome (like_net rel) (net_switch_to_inference bm n) (net_switch_to_inference bm n').
Proof.
  intros [ls ls' s s' g g' ins outs st Hl Hs Hg]. unfold net_switch_to_inference. cbn [net_run_state layers intermediate_states intermediate_gradients net_input_shape net_output_shape].
  eapply o_bind; [apply (o_map_layers Inference), Hl|]. intros. constructor; try assumption. constructor.
Qed.

End Free.
