(** * No tensor operation changes the strides, shape or element count of its destination *)
From Verif Require Import Base Arith Helper Tensor Convolution Spec Loops TensorFacts OpsFacts.

Section Layout.
Context {F : Type} {AR : Arith F}.
Notation T := (tensor F).

Definition layout (t : T) : stride3 * shape * nat := (strides t, tshape t, length (data t)).

Lemma layout_wf (a b : T) : layout a = layout b -> wf a -> wf b.
Proof. destruct a as [s1 h1 d1], b as [s2 h2 d2]. unfold layout, wf, len; cbn [strides tshape data]. intros [= -> -> ->]. auto. Qed.

Lemma layout_shape (a b : T) : layout a = layout b -> tshape a = tshape b.
Proof. destruct a as [s1 h1 d1], b as [s2 h2 d2]. unfold layout. cbn [strides tshape data]. intros [= _ -> _]. reflexivity. Qed.

Lemma layout_data (t : T) d : length d = length (data t) -> layout (with_data t d) = layout t.
Proof. intros H. unfold layout, with_data; cbn [strides tshape data]. rewrite H. reflexivity. Qed.

Lemma length_zip_update {A B} (f : A -> B -> A) d s : length (zip_update f d s) = length d.
Proof. revert s; induction d as [|a d IH]; intros [|b s]; simpl; auto. Qed.

Lemma vset_length {A} (l l' : list A) i x : vset l i x = Done l' -> length l' = length l.
Proof. unfold vset. destruct (i <? len l); intros [= <-]. apply length_list_set. Qed.

Lemma data_set_layout (t t' : T) id v : data_set t id v = Done t' -> layout t' = layout t.
Proof.
  unfold data_set. intros H. apply bind_done in H. destruct H as (d & H & [= <-]).
  apply layout_data. eapply vset_length, H.
Qed.

Lemma set_item_layout bm (t t' : T) x v : set_item bm t x v = Done t' -> layout t' = layout t.
Proof.
  unfold set_item. destruct (fits_index _ _); [|intros [= ->]; reflexivity]. intros H. apply bind_done in H.
  destruct H as (id & _ & H). eapply data_set_layout, H.
Qed.

Lemma fill_with_value_layout (t : T) v : layout (fill_with_value t v) = layout t.
Proof. apply layout_data. apply map_length. Qed.

Lemma add_layout (a b r : T) : layout (add a b r) = layout r.
Proof. unfold add. destruct (_ && _); [apply layout_data, length_zip_update|reflexivity]. Qed.

Lemma add_to_self_layout (a b : T) : layout (add_to_self a b) = layout a.
Proof. unfold add_to_self. destruct (shape_eqb _ _); [apply layout_data, length_zip_update|reflexivity]. Qed.

Lemma scale_layout (t : T) c r : layout (scale t c r) = layout r.
Proof. unfold scale. destruct (shape_eqb _ _); [apply layout_data, length_zip_update|reflexivity]. Qed.

Lemma scale_self_layout (t : T) c : layout (scale_self t c) = layout t.
Proof. apply layout_data. apply map_length. Qed.

Lemma multiply_elementwise_self_layout (a b : T) : layout (multiply_elementwise_self a b) = layout a.
Proof. unfold multiply_elementwise_self. destruct (shape_eqb _ _); [apply layout_data, length_zip_update|reflexivity]. Qed.

Lemma multiply_elementwise_layout (a b r : T) : layout (multiply_elementwise a b r) = layout r.
Proof. unfold multiply_elementwise. destruct (_ && _); [apply layout_data, length_zip_update|reflexivity]. Qed.

Lemma relu_mask_loop_length (i m : list F) :
  length (fst (relu_mask_loop i m)) = length i /\ length (snd (relu_mask_loop i m)) = length m.
Proof.
  revert m; induction i as [|x i IH]; intros [|y m]; simpl; auto. specialize (IH m).
  destruct (relu_mask_loop i m) as [ri rm]. destruct (fgtb x fzero); simpl in *; destruct IH; auto.
Qed.

Lemma relu_self_layout (t m t' m' : T) r :
  relu_self_and_store_mask t m = (t', m', r) -> layout t' = layout t /\ layout m' = layout m.
Proof.
  unfold relu_self_and_store_mask. destruct (negb _); [intros [= <- <- <-]; auto|].
  pose proof (relu_mask_loop_length (data t) (data m)) as (H1 & H2).
  destruct (relu_mask_loop (data t) (data m)) as [a b]. intros [= <- <- <-]. split; apply layout_data; assumption.
Qed.

Lemma fill_with_vec_layout bm (t t' : T) d r : wf t -> fill_with_vec bm t d = Done (t', r) -> layout t' = layout t.
Proof.
  intros H. unfold fill_with_vec, total_items. rewrite total_size_done by (apply wf_alloc; exact H). cbn [bind].
  destruct (N.eqb_spec (len d) (di (tshape t) * dj (tshape t) * dk (tshape t))) as [E|E]; cbn [negb]; intros [= <- <-];
    [|reflexivity].
  apply layout_data. pose proof (len_data_wf t H). unfold len in *. rewrite <- E in H0. lia.
Qed.

(** Loops whose body only writes elements. *)
Lemma forM_layout {A} (l : list A) (f : A -> T -> res T) t t' :
  (forall x t t', f x t = Done t' -> layout t' = layout t) -> forM l f t = Done t' -> layout t' = layout t.
Proof.
  intros H E. revert E. apply (forM_done_inv (fun t' => layout t' = layout t)); [reflexivity|].
  intros x s s' _ <- E. eapply H, E.
Qed.

Lemma for_kji_layout s (body : N -> N -> N -> T -> res T) t t' :
  (forall i j k t t', body i j k t = Done t' -> layout t' = layout t) -> for_kji s body t = Done t' -> layout t' = layout t.
Proof.
  intros H. rewrite for_kji_cells. apply forM_layout. intros [[i j] k]. apply H.
Qed.

Lemma tryM_layout {A} (l : list A) (f : A -> T -> res (T * result unit)) t t' r :
  (forall x t t' r, f x t = Done (t', r) -> layout t' = layout t) -> tryM l f t = Done (t', r) -> layout t' = layout t.
Proof.
  intros H. apply (tryM_done_inv (fun t' => layout t' = layout t)); [reflexivity|].
  intros x s s' r' _ <- E. eapply H, E.
Qed.

Ltac writes H := repeat first [eapply data_set_layout, H | eapply set_item_layout, H |
  apply bind_done in H; let x := fresh "x" in destruct H as (x & _ & H)].
Ltac inj H := injection H as <- <-.

Lemma transpose_ij_layout bm (a r r' : T) e : transpose_ij bm a r = Done (r', e) -> layout r' = layout r.
Proof.
  unfold transpose_ij. do 3 (destruct (negb _); [intros [= <- <-]; reflexivity|]). intros H. apply bind_done in H.
  destruct H as (x & H & E). inj E. revert H. apply for_kji_layout. intros i j k t t' H. writes H.
Qed.

Lemma matrix_multiply_layout bm (a b r r' : T) : matrix_multiply bm a b r = Done r' -> layout r' = layout r.
Proof.
  unfold matrix_multiply. destruct (check_matrix_multiply_dimensions _ _ _); [|intros [= <-]; reflexivity].
  apply for_kji_layout. intros i j k t t' H. writes H.
Qed.

Lemma matrix_multiply_first_layout bm (a b r r' : T) e :
  matrix_multiply_transpose_first bm a b r = Done (r', e) -> layout r' = layout r.
Proof.
  unfold matrix_multiply_transpose_first. destruct (negb _); [intros [= <- <-]; reflexivity|]. intros H. apply bind_done in H.
  destruct H as (x & H & E). inj E. revert H. apply for_kji_layout. intros i j k t t' H. writes H.
Qed.

Lemma matrix_multiply_second_layout bm (a b r r' : T) e :
  matrix_multiply_transpose_second bm a b r = Done (r', e) -> layout r' = layout r.
Proof.
  unfold matrix_multiply_transpose_second. destruct (negb _); [intros [= <- <-]; reflexivity|]. intros H. apply bind_done in H.
  destruct H as (x & H & E). inj E. revert H. apply for_kji_layout. intros i j k t t' H. writes H.
Qed.

Lemma matrix_multiply_add_relu_layout bm (x w b r r' : T) :
  matrix_multiply_add_relu bm x w b r = Done r' -> layout r' = layout r.
Proof.
  unfold matrix_multiply_add_relu. destruct (check_matrix_multiply_dimensions _ _ _); [|intros [= <-]; reflexivity].
  destruct (shape_eqb _ _); [|intros [= <-]; reflexivity].
  apply for_kji_layout. intros i j k t t' H. writes H.
Qed.

Lemma max_pool_layout bm (im r r' : T) mask stride : max_pool bm im mask stride r = Done r' -> layout r' = layout r.
Proof.
  unfold max_pool. intros H. apply bind_done in H. destruct H as ([|] & _ & H); [|injection H as <-; reflexivity].
  revert H. apply for_kji_layout. intros i j k t t' H. writes H.
Qed.

Lemma max_pool_track_layout bm (im r r' : T) mask stride o o' e :
  max_pool_track_origin bm im mask stride r o = Done (r', o', e) -> layout r' = layout r /\ length o' = length o.
Proof.
  unfold max_pool_track_origin. intros H. apply bind_done in H. destruct H as ([|] & _ & H); cbn [negb] in H;
    [|injection H as <- <- <-; auto].
  apply bind_done in H. destruct H as (n & _ & H). destruct (negb _); [injection H as <- <- <-; auto|].
  apply bind_done in H. destruct H as ((r1 & o1) & H & E). injection E as <- <- <-.
  rewrite for_kji_cells in H. revert H.
  apply (forM_done_inv (fun s => layout (fst s) = layout r /\ length (snd s) = length o) _ _ (r, o) (r1, o1)); [auto|].
  intros [[i j] k] [t p] [t' p'] _ (L1 & L2) H. cbn [fst snd] in *. apply bind_done in H. destruct H as (id & _ & H).
  apply bind_done in H. destruct H as ((m & q) & _ & H). apply bind_done in H. destruct H as (t1 & Ht & H).
  apply bind_done in H. destruct H as (p1 & Hp & H). injection H as <- <-.
  apply set_item_layout in Ht. apply vset_length in Hp. split; congruence.
Qed.

Lemma add_from_index_list_layout bm (a r r' : T) l e :
  add_from_index_list bm a r l = Done (r', e) -> layout r' = layout r.
Proof.
  unfold add_from_index_list. intros H. apply bind_done in H. destruct H as (n & _ & H).
  destruct (n <? len l); [inj H; reflexivity|]. apply bind_done in H. destruct H as (n2 & _ & H).
  revert H. apply tryM_layout. intros [p q] t t' r0 H. destruct (n2 <=? q); [inj H; reflexivity|].
  apply bind_done in H. destruct H as (x & _ & H). apply bind_done in H. destruct H as (y & _ & H).
  apply bind_done in H. destruct H as (t1 & H & E). inj E. eapply data_set_layout, H.
Qed.

Lemma softmax_layout (a r r' : T) : softmax a r = Done r' -> layout r' = layout r.
Proof.
  unfold softmax. destruct (shape_eqb _ _); [|intros [= <-]; reflexivity]. intros H. apply bind_done in H.
  destruct H as ((o & s) & H & E). injection E as <-. rewrite layout_data by apply map_length.
  unfold for_ in H. revert H. apply (forM_done_inv (fun p => layout (fst p) = layout r) _ _ (r, fzero) (o, s)); [reflexivity|].
  intros i [t x] [t' x'] _ L H. cbn [fst] in *. apply bind_done in H. destruct H as (v & _ & H).
  apply bind_done in H. destruct H as (t1 & H & E). inj E. apply data_set_layout in H. congruence.
Qed.

Lemma convolution_bias_layout bm (im k b r r' : T) stride ch e :
  convolution_bias bm im k b stride r ch = Done (r', e) -> layout r' = layout r.
Proof.
  unfold convolution_bias. intros H. apply bind_done in H. destruct H as ([[]|m] & _ & H); [|inj H; reflexivity].
  destruct (_ || _); [inj H; reflexivity|]. apply bind_done in H. destruct H as (bv & _ & H).
  apply bind_done in H. destruct H as (t & H & E). inj E. revert H. unfold for_. apply forM_layout.
  intros j t0 t1 H. revert H. apply forM_layout. intros i t2 t3 H. writes H.
Qed.

Lemma convolution_bias_relu_layout bm (im k b r r' : T) stride ch e :
  convolution_bias_relu bm im k b stride r ch = Done (r', e) -> layout r' = layout r.
Proof.
  unfold convolution_bias_relu. intros H. apply bind_done in H. destruct H as ([[]|m] & _ & H); [|inj H; reflexivity].
  destruct (_ || _); [inj H; reflexivity|]. apply bind_done in H. destruct H as (bv & _ & H).
  apply bind_done in H. destruct H as (t & H & E). inj E. revert H. unfold for_. apply forM_layout.
  intros j t0 t1 H. revert H. apply forM_layout. intros i t2 t3 H. writes H.
Qed.

Lemma backprop_outgoing_layout bm (inc : T) kernels stride out out' e :
  convolution_backprop_outgoing_gradient bm inc kernels stride out = Done (out', e) -> layout out' = layout out.
Proof.
  unfold convolution_backprop_outgoing_gradient. intros H. apply bind_done in H. destruct H as ((u & c) & _ & H).
  destruct c as [[]|m]; [|inj H; reflexivity]. destruct (negb _); [inj H; reflexivity|].
  apply bind_done in H. destruct H as (t & H & E). inj E. revert H. apply for_kji_layout. intros i j k t0 t1 H. writes H.
Qed.

Lemma backprop_kernel_layout bm (inc im kg kg' : T) stride ch e :
  convolution_backprop_kernel bm inc im stride ch kg = Done (kg', e) -> layout kg' = layout kg.
Proof.
  unfold convolution_backprop_kernel. intros H. apply bind_done in H. destruct H as ([[]|m] & _ & H); [|inj H; reflexivity].
  apply bind_done in H. destruct H as (t & H & E). inj E. revert H. apply for_kji_layout. intros i j k t0 t1 H. writes H.
Qed.

End Layout.
