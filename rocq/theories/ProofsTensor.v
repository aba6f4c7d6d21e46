(** * Proofs for C01-C09, C11, C12, C15 *)
From Coq Require Import ZifyBool ZifyNat ZifyN.
From Verif Require Import Base Arith Helper Tensor Convolution Spec Loops TensorFacts OpsFacts.
Ltac Zify.zify_post_hook ::= Z.div_mod_to_equations.

Section Generic.
Context {F : Type} {AR : Arith F}.
Notation T := (tensor F).

Lemma holds_iff bm (t : T) s f : holds bm t s f <-> allocatable s /\ t = of_fun s f.
Proof.
  split.
  - intros (W & <- & R). split; [apply wf_alloc; exact W|]. eapply reads_wf_eq; eassumption.
  - intros (A & ->). split; [apply wf_of_fun; exact A|]. split; [reflexivity|]. apply reads_of_fun; exact A.
Qed.

Lemma holds_of_fun bm s (f : N -> N -> N -> F) : allocatable s -> holds bm (of_fun s f) s f.
Proof. intros; apply holds_iff; auto. Qed.

Lemma holds_wf bm (t : T) : wf t -> holds bm t (tshape t) (val t).
Proof. intros W. split; [exact W|]. split; [reflexivity|]. apply reads_val; exact W. Qed.

Lemma wf_ex (t : T) : wf t -> exists s f, allocatable s /\ t = of_fun s f.
Proof. intros W. exists (tshape t), (val t). split; [apply wf_alloc; exact W|apply wf_eq; exact W]. Qed.

Ltac wf_start := repeat match goal with
  | H : wf ?t |- _ => is_var t;
      let s := fresh "s" in let f := fresh "f" in let A := fresh "A" in
      destruct (wf_ex t H) as (s & f & A & ->); clear H
  end; cbn [tshape of_fun] in *.

(** ** C01 *)
Lemma flat_index_bijection bm (t : T) : wf t ->
  let s := tshape t in
  (forall i j k, in_shape s i j k ->
     get_data_index bm t (mkIndex i j k) = Done (i + di s * j + di s * dj s * k)
     /\ i + di s * j + di s * dj s * k < di s * dj s * dk s)
  /\ (forall i j k i' j' k' p, in_shape s i j k -> in_shape s i' j' k' ->
        get_data_index bm t (mkIndex i j k) = Done p -> get_data_index bm t (mkIndex i' j' k') = Done p ->
        (i, j, k) = (i', j', k'))
  /\ (forall p, p < di s * dj s * dk s ->
        exists i j k, in_shape s i j k /\ get_data_index bm t (mkIndex i j k) = Done p).
Proof.
  intros W s. repeat split.
  - apply data_index_wf; assumption.
  - apply flat_lt; assumption.
  - intros * H H' E E'. unfold s in *. rewrite data_index_wf in E, E' by assumption.
    destruct (flat_inj _ _ _ _ _ _ _ H H') as (-> & -> & ->); [congruence|reflexivity].
  - intros p Hp. destruct (flat_surj s p Hp) as (i & j & k & Hin & Hf). exists i, j, k. split; [exact Hin|].
    rewrite <- Hf. apply data_index_wf; assumption.
Qed.

(** ** C02 *)
Lemma get_item_of_fun_any bm s (f : N -> N -> N -> F) x :
  allocatable s ->
  get_item bm (of_fun s f) x = Done (if fits_index s x then f (ix x) (jx x) (kx x) else fzero).
Proof.
  intros A. destruct x as [i j k]. rewrite get_item_wf by (apply wf_of_fun; exact A). cbn [tshape of_fun].
  rewrite fits_index_in. destruct (in_shapeb_spec s i j k); [|reflexivity].
  rewrite val_of_fun by assumption. reflexivity.
Qed.

Lemma run_writes bm s (h : list (write F)) f :
  allocatable s ->
  forM h (run_write bm) (of_fun s f)
  = Done (of_fun s (fun i j k =>
      fold_left (fun old w => match w with
                          | WSet y v => if index_eqb (mkIndex i j k) y then v else old
                          | WFill v => v
                          end) h (f i j k))).
Proof.
  intros A. revert f; induction h as [|w h IH]; intros f; simpl; [reflexivity|].
  destruct w as [[i j k] v|v]; simpl.
  - destruct (in_shapeb_spec s i j k) as [Hin|Hout].
    + rewrite set_item_of_fun by assumption. cbn [bind]. rewrite IH. f_equal.
    + rewrite set_item_out by assumption. cbn [bind]. rewrite IH. f_equal. apply of_fun_ext.
      intros i' j' k' Hin'. f_equal. unfold index_eqb; simpl.
      destruct (N.eqb_spec i' i), (N.eqb_spec j' j), (N.eqb_spec k' k); simpl; try reflexivity.
      subst; contradiction.
  - rewrite fill_with_value_of_fun. rewrite IH. reflexivity.
Qed.

Lemma write_history bm s (h : list (write F)) : allocatable s ->
  exists t0 t, tensor_new bm s = Done t0 /\ forM h (run_write bm) t0 = Done t
    /\ forall x, get_item bm t x = Done (if fits_index s x then last_written h x else fzero).
Proof.
  intros A. do 2 eexists. split; [apply tensor_new_done; exact A|]. split; [apply run_writes; exact A|].
  intros [i j k]. rewrite get_item_of_fun_any by exact A. reflexivity.
Qed.

(** ** C04 *)
Lemma u32_mul_release x y : u32_mul Release x y = Done ((x * y) mod W32).
Proof.
  unfold u32_mul. destruct (N.ltb_spec (x * y) W32); [|reflexivity]. rewrite N.mod_small by assumption. reflexivity.
Qed.

Lemma u32_add_release x y : u32_add Release x y = Done ((x + y) mod W32).
Proof.
  unfold u32_add. destruct (N.ltb_spec (x + y) W32); [|reflexivity]. rewrite N.mod_small by assumption. reflexivity.
Qed.

Lemma total_size_release s : total_size Release s = Done ((di s * dj s * dk s) mod W32).
Proof.
  unfold total_size. rewrite u32_mul_release. cbn [bind]. rewrite u32_mul_release.
  rewrite N.mul_mod_idemp_l by discriminate. reflexivity.
Qed.

Lemma stride_of_shape_release s : stride_of_shape Release s = Done (mkStride 1 (di s) ((di s * dj s) mod W32)).
Proof. unfold stride_of_shape. rewrite u32_mul_release. reflexivity. Qed.

Lemma stride_mul_release s i j k :
  stride_mul Release (mkStride 1 (di s) ((di s * dj s) mod W32)) (mkIndex i j k) = Done (flat s i j k mod W32).
Proof.
  unfold stride_mul, flat; cbn [si sj sk ix jx kx].
  rewrite u32_mul_release. cbn [bind]. rewrite u32_mul_release. cbn [bind]. rewrite u32_add_release. cbn [bind].
  rewrite u32_mul_release. cbn [bind]. rewrite u32_add_release. f_equal.
  rewrite N.mul_mod_idemp_l by discriminate.
  rewrite <- !N.add_mod by discriminate. rewrite N.mul_1_l.
  rewrite <- (N.add_mod_idemp_l (_ + _)), <- N.add_mod, N.add_mod_idemp_l by discriminate. reflexivity.
Qed.

Lemma accessible_wf bm (t : T) : wf t -> accessible bm t.
Proof.
  intros W i j k v Hin. split.
  - rewrite get_item_wf by exact W. eauto.
  - rewrite (wf_eq t W). eexists. apply set_item_of_fun; [apply wf_alloc; exact W|exact Hin].
Qed.

Lemma tensor_new_debug s : u32_shape s ->
  ((exists t : T, tensor_new Debug s = Done t) <-> di s * dj s < W32 /\ di s * dj s * dk s < W32)
  /\ (forall t : T, tensor_new Debug s = Done t -> tshape t = s /\ accessible Debug t).
Proof.
  intros (U1 & U2 & U3).
  assert (A : (exists t : T, tensor_new Debug s = Done t) -> allocatable s).
  { intros (t & E). unfold tensor_new, total_size in E.
    apply bind_done in E. destruct E as (n & En & E). apply bind_done in En. destruct En as (ij & E1 & E2).
    unfold u32_mul in E1, E2. destruct (N.ltb_spec (di s * dj s) W32); [|discriminate].
    injection E1 as <-. destruct (N.ltb_spec (di s * dj s * dk s) W32); [|discriminate].
    repeat split; assumption. }
  split; [split|].
  - intros H. destruct (A H) as (_ & _ & _ & ? & ?). auto.
  - intros (H1 & H2). eexists. apply tensor_new_done. repeat split; assumption.
  - intros t E. assert (A' : allocatable s) by (apply A; eauto).
    rewrite tensor_new_done in E by exact A'. injection E as <-. split; [reflexivity|].
    apply accessible_wf, wf_of_fun. exact A'.
Qed.

Lemma tensor_new_release s : u32_shape s ->
  exists t : T, tensor_new Release s = Done t /\ tshape t = s
    /\ (accessible Release t <-> di s * dj s * dk s < W32).
Proof.
  intros (U1 & U2 & U3).
  exists (mkTensor (mkStride 1 (di s) ((di s * dj s) mod W32)) s (repeat fzero (N.to_nat ((di s * dj s * dk s) mod W32)))).
  split; [unfold tensor_new; rewrite total_size_release, stride_of_shape_release; reflexivity|].
  split; [reflexivity|]. split.
  - intros Acc. destruct (N.lt_ge_cases (di s * dj s * dk s) W32) as [|G]; [assumption|exfalso].
    destruct (flat_surj s (W32 - 1)) as (i & j & k & Hin & Hf); [unfold W32 in *; lia|].
    destruct (Acc i j k fzero Hin) as ((x & E) & _). unfold get_item in E. cbn [tshape] in E.
    rewrite fits_index_in in E. destruct (in_shapeb_spec s i j k); [|contradiction].
    unfold get_data_index in E; cbn [strides] in E. rewrite stride_mul_release, Hf in E. cbn [bind] in E.
    unfold data_get in E; cbn [data] in E. apply vget_done in E. destruct E as (E & _).
    unfold len in E. rewrite repeat_length, N2Nat.id in E.
    rewrite (N.mod_small (W32 - 1)) in E by (unfold W32; lia).
    pose proof (N.mod_lt (di s * dj s * dk s) W32 ltac:(discriminate)). lia.
  - intros H i j k v Hin.
    assert (E : forall id, id = flat s i j k mod W32 ->
               id < len (repeat (fzero : F) (N.to_nat ((di s * dj s * dk s) mod W32)))).
    { intros id ->. unfold len. rewrite repeat_length, N2Nat.id. pose proof (flat_lt _ _ _ _ Hin).
      rewrite !N.mod_small by (cbn [tshape] in *; lia). assumption. }
    cbn [tshape] in Hin. unfold get_item, set_item; cbn [tshape].
    rewrite fits_index_in. destruct (in_shapeb_spec s i j k); [|contradiction].
    unfold get_data_index; cbn [strides]. rewrite stride_mul_release. cbn [bind].
    unfold data_get, data_set; cbn [data]. specialize (E _ eq_refl).
    rewrite vget_nth with (d := fzero) by exact E. rewrite vset_done by exact E. split; eexists; reflexivity.
Qed.

(** ** C05 *)
Ltac holds_start := repeat match goal with
  | H : holds _ _ _ _ |- _ => apply holds_iff in H; destruct H as (? & ->)
  end.

Lemma add_holds bm t1 t2 r s f1 f2 g :
  holds bm t1 s f1 -> holds bm t2 s f2 -> holds bm r s g ->
  holds bm (add t1 t2 r) s (fun i j k => fadd (f1 i j k) (f2 i j k)).
Proof. intros. holds_start. rewrite add_of_fun. apply holds_of_fun; assumption. Qed.

Lemma add_to_self_holds bm t1 t2 s f1 f2 :
  holds bm t1 s f1 -> holds bm t2 s f2 ->
  holds bm (add_to_self t1 t2) s (fun i j k => fadd (f1 i j k) (f2 i j k)).
Proof. intros. holds_start. rewrite add_to_self_of_fun. apply holds_of_fun; assumption. Qed.

Lemma multiply_holds bm t1 t2 r s f1 f2 g :
  holds bm t1 s f1 -> holds bm t2 s f2 -> holds bm r s g ->
  holds bm (multiply_elementwise t1 t2 r) s (fun i j k => fmul (f1 i j k) (f2 i j k)).
Proof. intros. holds_start. rewrite multiply_elementwise_of_fun. apply holds_of_fun; assumption. Qed.

Lemma multiply_self_holds bm t1 t2 s f1 f2 :
  holds bm t1 s f1 -> holds bm t2 s f2 ->
  holds bm (multiply_elementwise_self t1 t2) s (fun i j k => fmul (f1 i j k) (f2 i j k)).
Proof. intros. holds_start. rewrite multiply_elementwise_self_of_fun. apply holds_of_fun; assumption. Qed.

Lemma scale_holds bm t c r s f g :
  holds bm t s f -> holds bm r s g -> holds bm (scale t c r) s (fun i j k => fmul (f i j k) c).
Proof. intros. holds_start. rewrite scale_of_fun. apply holds_of_fun; assumption. Qed.

Lemma scale_self_holds bm t c s f :
  holds bm t s f -> holds bm (scale_self t c) s (fun i j k => fmul (f i j k) c).
Proof. intros. holds_start. rewrite scale_self_of_fun. apply holds_of_fun; assumption. Qed.

Lemma elementwise_mismatch (t1 t2 r : T) c :
  (~ (tshape t1 = tshape t2 /\ tshape t1 = tshape r) -> add t1 t2 r = r /\ multiply_elementwise t1 t2 r = r)
  /\ (tshape t1 <> tshape t2 -> add_to_self t1 t2 = t1 /\ multiply_elementwise_self t1 t2 = t1)
  /\ (tshape t1 <> tshape r -> scale t1 c r = r).
Proof.
  unfold add, multiply_elementwise, add_to_self, multiply_elementwise_self, scale. repeat split.
  - destruct (shape_eqb_spec (tshape t1) (tshape t2)), (shape_eqb_spec (tshape t1) (tshape r)); simpl; tauto.
  - destruct (shape_eqb_spec (tshape t1) (tshape t2)), (shape_eqb_spec (tshape t1) (tshape r)); simpl; tauto.
  - destruct (shape_eqb_spec (tshape t1) (tshape t2)); tauto.
  - destruct (shape_eqb_spec (tshape t1) (tshape t2)); tauto.
  - destruct (shape_eqb_spec (tshape t1) (tshape r)); tauto.
Qed.

(** ** C06 *)
Lemma fill_with_vec_spec bm (t : T) v : wf t ->
  let s := tshape t in
  (len v = di s * dj s * dk s ->
     exists t', fill_with_vec bm t v = Done (t', Ok tt) /\ wf t' /\ tshape t' = s
       /\ forall i j k, in_shape s i j k ->
            exists x, get_item bm t' (mkIndex i j k) = Done x
                      /\ nth_error v (N.to_nat (i + di s * j + di s * dj s * k)) = Some x)
  /\ (len v <> di s * dj s * dk s -> exists e, fill_with_vec bm t v = Done (t, Err e)).
Proof.
  intros W s. pose proof (wf_alloc _ W) as A. split.
  - intros L. eexists. split.
    + unfold fill_with_vec, total_items. rewrite total_size_done by exact A. cbn [bind].
      fold s. rewrite L, N.eqb_refl. reflexivity.
    + assert (W' : wf (with_data t v)).
      { destruct W as (_ & W2 & _). split; [exact A|]. split; [exact W2|exact L]. }
      split; [exact W'|]. split; [reflexivity|]. intros i j k Hin. eexists. split.
      * apply (reads_val bm _ W'). exact Hin.
      * apply nth_error_nth'. pose proof (flat_lt _ _ _ _ Hin) as Hlt. rewrite <- L in Hlt.
        cbn [data with_data]. unfold flat, s in *. cbn [tshape with_data] in *.
        match goal with |- (N.to_nat ?x < _)%nat => remember x as p end. unfold len in Hlt. lia.
  - intros L. unfold fill_with_vec, total_items. rewrite total_size_done by exact A. cbn [bind].
    fold s. destruct (N.eqb_spec (len v) (di s * dj s * dk s)); [contradiction|]. eexists; reflexivity.
Qed.

(** ** C07 *)
Lemma swapped_swap a b : same_but_swapped a b -> b = swap_shape a.
Proof. intros (H1 & H2 & H3). unfold swap_shape. destruct a, b; simpl in *; subst; reflexivity. Qed.

Lemma transpose_spec bm (input output : T) si so f g :
  holds bm input si f -> holds bm output so g ->
  (same_but_swapped si so ->
     exists out, transpose_ij bm input output = Done (out, Ok tt) /\ holds bm out so (fun i j k => f j i k))
  /\ (~ same_but_swapped si so -> exists e, transpose_ij bm input output = Done (output, Err e)).
Proof.
  intros Hi Ho. holds_start. split.
  - intros Sw. pose proof (swapped_swap _ _ Sw) as ->. eexists. rewrite transpose_of_fun by assumption.
    split; [reflexivity|]. apply holds_of_fun; assumption.
  - intros Sw. unfold transpose_ij, get_shape. cbn [tshape of_fun]. unfold same_but_swapped in Sw.
    destruct (N.eqb_spec (dk si) (dk so)); cbn [negb]; [|eexists; reflexivity].
    destruct (N.eqb_spec (di si) (dj so)); cbn [negb]; [|eexists; reflexivity].
    destruct (N.eqb_spec (dj si) (di so)); cbn [negb]; [|eexists; reflexivity].
    exfalso. apply Sw. auto.
Qed.

Lemma transpose_involution bm (input mid back : T) :
  wf input -> wf mid -> wf back -> same_but_swapped (tshape input) (tshape mid) -> tshape back = tshape input ->
  exists m, transpose_ij bm input mid = Done (m, Ok tt) /\ transpose_ij bm m back = Done (input, Ok tt).
Proof.
  intros W1 W2 W3 Sw E. pose proof (swapped_swap _ _ Sw) as Es.
  rewrite (wf_eq input W1), (wf_eq mid W2), Es, (wf_eq back W3), E. cbn [tshape of_fun] in *.
  assert (A1 := wf_alloc _ W1). assert (A2 := wf_alloc _ W2). rewrite Es in A2.
  set (s := tshape input) in *. eexists. split; [apply transpose_of_fun; assumption|].
  assert (Ess : s = swap_shape (swap_shape s)) by (destruct s; reflexivity).
  assert (A1' : allocatable (swap_shape (swap_shape s))) by (rewrite <- Ess; exact A1).
  pose proof (fun f g => transpose_of_fun bm (swap_shape s) f g A2 A1') as G.
  rewrite <- Ess in G. rewrite G. reflexivity.
Qed.

(** ** C08 *)
Lemma mm_shapes_check s1 s2 sr : mm_shapes s1 s2 sr <-> check_matrix_multiply_dimensions s1 s2 sr = true.
Proof. rewrite check_mm_true. unfold mm_shapes. lia. Qed.

Lemma mm_shapes_check_false s1 s2 sr : ~ mm_shapes s1 s2 sr -> check_matrix_multiply_dimensions s1 s2 sr = false.
Proof.
  intros H. destruct (check_matrix_multiply_dimensions s1 s2 sr) eqn:E; [|reflexivity].
  exfalso. apply H. apply mm_shapes_check. exact E.
Qed.

Lemma matrix_multiply_spec bm (t1 t2 r : T) s1 s2 sr f1 f2 g :
  holds bm t1 s1 f1 -> holds bm t2 s2 f2 -> holds bm r sr g ->
  (mm_shapes s1 s2 sr ->
     exists r', matrix_multiply bm t1 t2 r = Done r'
       /\ holds bm r' sr (fun i j k => sum (map (fun ii => fmul (f1 i ii k) (f2 ii j k)) (upto (dj s1)))))
  /\ (~ mm_shapes s1 s2 sr -> matrix_multiply bm t1 t2 r = Done r).
Proof.
  intros. holds_start. split.
  - intros M. apply mm_shapes_check in M. eexists. split; [apply matrix_multiply_of_fun; assumption|].
    apply holds_of_fun; assumption.
  - intros M. unfold matrix_multiply, get_shape. cbn [tshape of_fun].
    rewrite mm_shapes_check_false by assumption. reflexivity.
Qed.

(** ** C09 *)
Lemma transpose_first_spec bm (a b r at_ : T) :
  wf a -> wf b -> wf r -> wf at_ -> same_but_swapped (tshape a) (tshape at_) ->
  (mm_shapes (tshape at_) (tshape b) (tshape r) ->
     exists at' p, transpose_ij bm a at_ = Done (at', Ok tt) /\ matrix_multiply bm at' b r = Done p
       /\ matrix_multiply_transpose_first bm a b r = Done (p, Ok tt))
  /\ (~ mm_shapes (tshape at_) (tshape b) (tshape r) ->
        exists e, matrix_multiply_transpose_first bm a b r = Done (r, Err e)).
Proof.
  intros Wa Wb Wr Wt Sw. wf_start. pose proof (swapped_swap _ _ Sw) as ->. split.
  - intros M. apply mm_shapes_check in M. do 2 eexists. split; [|split].
    + apply transpose_of_fun; assumption.
    + apply matrix_multiply_of_fun; assumption.
    + apply matrix_multiply_first_of_fun; assumption.
  - intros M. unfold matrix_multiply_transpose_first, get_shape. change shape_transpose_ij with swap_shape.
    cbn [tshape of_fun]. rewrite mm_shapes_check_false by assumption. eexists; reflexivity.
Qed.

Lemma transpose_second_spec bm (a b r bt : T) :
  wf a -> wf b -> wf r -> wf bt -> same_but_swapped (tshape b) (tshape bt) ->
  (mm_shapes (tshape a) (tshape bt) (tshape r) ->
     exists bt' p, transpose_ij bm b bt = Done (bt', Ok tt) /\ matrix_multiply bm a bt' r = Done p
       /\ matrix_multiply_transpose_second bm a b r = Done (p, Ok tt))
  /\ (~ mm_shapes (tshape a) (tshape bt) (tshape r) ->
        exists e, matrix_multiply_transpose_second bm a b r = Done (r, Err e)).
Proof.
  intros Wa Wb Wr Wt Sw. wf_start. pose proof (swapped_swap _ _ Sw) as ->. split.
  - intros M. apply mm_shapes_check in M. do 2 eexists. split; [|split].
    + apply transpose_of_fun; assumption.
    + apply matrix_multiply_of_fun; assumption.
    + apply matrix_multiply_second_of_fun; assumption.
  - intros M. unfold matrix_multiply_transpose_second, get_shape. change shape_transpose_ij with swap_shape.
    cbn [tshape of_fun]. rewrite mm_shapes_check_false by assumption. eexists; reflexivity.
Qed.

End Generic.

Ltac holds_start := repeat match goal with
  | H : holds _ _ _ _ |- _ => apply holds_iff in H; destruct H as (? & ->)
  end.

Ltac wf_start := repeat match goal with
  | H : wf ?t |- _ => is_var t;
      let s := fresh "s" in let f := fresh "f" in let A := fresh "A" in
      destruct (wf_ex t H) as (s & f & A & ->); clear H
  end; cbn [tshape of_fun] in *.

Lemma tensor_new_wf {F} {AR : Arith F} bm s : allocatable s ->
  exists t, tensor_new bm s = Done t /\ wf t /\ tshape t = s.
Proof.
  intros A. eexists. split; [apply tensor_new_done; exact A|]. split; [apply wf_of_fun; exact A|reflexivity].
Qed.

Lemma fits_index_spec s i j k : fits_index s (mkIndex i j k) = true <-> in_shape s i j k.
Proof.
  rewrite fits_index_in. destruct (in_shapeb_spec s i j k); intuition discriminate.
Qed.
