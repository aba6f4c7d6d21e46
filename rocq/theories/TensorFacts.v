(** * Well-formed tensors as functions on index triples *)
From Coq Require Import ZifyBool ZifyNat ZifyN.
From Verif Require Import Base Arith Helper Tensor Spec Loops.
Ltac Zify.zify_post_hook ::= Z.div_mod_to_equations.

Lemma shape_eqb_eq a b : shape_eqb a b = true <-> a = b.
Proof.
  unfold shape_eqb. destruct a, b; simpl. split.
  - intros H. f_equal; lia.
  - intros [= -> -> ->]. lia.
Qed.

Lemma shape_eqb_refl a : shape_eqb a a = true.
Proof. apply shape_eqb_eq; reflexivity. Qed.

Lemma shape_eqb_spec a b : reflect (a = b) (shape_eqb a b).
Proof. apply iff_reflect. symmetry. apply shape_eqb_eq. Qed.

Lemma shape_eqb_neq a b : shape_eqb a b = false <-> a <> b.
Proof. destruct (shape_eqb_spec a b); split; congruence. Qed.

Definition strides_of (s : shape) : stride3 := mkStride 1 (di s) (di s * dj s).

Definition in_shapeb (s : shape) (i j k : N) : bool := (i <? di s) && (j <? dj s) && (k <? dk s).

Lemma in_shapeb_spec s i j k : reflect (in_shape s i j k) (in_shapeb s i j k).
Proof. apply iff_reflect. unfold in_shape, in_shapeb. lia. Qed.

Lemma fits_index_in s i j k : fits_index s (mkIndex i j k) = in_shapeb s i j k.
Proof.
  unfold fits_index, in_shapeb; simpl.
  destruct (N.leb_spec (di s) i), (N.leb_spec (dj s) j), (N.leb_spec (dk s) k); lia.
Qed.

Lemma stride_mul_done bm s i j k :
  allocatable s -> in_shape s i j k -> stride_mul bm (strides_of s) (mkIndex i j k) = Done (flat s i j k).
Proof.
  intros (H1 & H2 & H3 & H4 & H5) Hin. pose proof (flat_lt _ _ _ _ Hin) as Hlt.
  unfold stride_mul, strides_of, flat in *. cbn [si sj sk ix jx kx].
  destruct Hin as (Hi & Hj & Hk).
  rewrite u32_mul_done by lia. cbn [bind]. rewrite u32_mul_done by nia. cbn [bind].
  rewrite u32_add_done by nia. cbn [bind]. rewrite u32_mul_done by nia. cbn [bind].
  rewrite u32_add_done by nia. f_equal. lia.
Qed.

Lemma total_size_done bm s : allocatable s -> total_size bm s = Done (di s * dj s * dk s).
Proof.
  intros (H1 & H2 & H3 & H4 & H5). unfold total_size.
  rewrite u32_mul_done by assumption. cbn [bind]. apply u32_mul_done. assumption.
Qed.

Lemma stride_of_shape_done bm s : allocatable s -> stride_of_shape bm s = Done (strides_of s).
Proof.
  intros (H1 & H2 & H3 & H4 & H5). unfold stride_of_shape.
  rewrite u32_mul_done by assumption. reflexivity.
Qed.

Section Facts.
Context {F : Type} {AR : Arith F}.
Notation T := (tensor F).

(** The well-formed tensor of shape [s] holding [f]. *)
Definition of_fun (s : shape) (f : N -> N -> N -> F) : T :=
  mkTensor (strides_of s) s (map (fun '(i, j, k) => f i j k) (cells s)).

(** The element at (i, j, k), straight from the data vector. *)
Definition val (t : T) (i j k : N) : F := nth (N.to_nat (flat (tshape t) i j k)) (data t) fzero.

Lemma wf_of_fun s f : allocatable s -> wf (of_fun s f).
Proof.
  intros H. split; [exact H|]. split; [reflexivity|].
  unfold len, of_fun; cbn [data tshape]. rewrite map_length, length_cells. lia.
Qed.

Lemma wf_alloc (t : T) : wf t -> allocatable (tshape t).
Proof. intros (H & _). exact H. Qed.

Lemma of_fun_ext s f g : (forall i j k, in_shape s i j k -> f i j k = g i j k) -> of_fun s f = of_fun s g.
Proof.
  intros H. unfold of_fun. f_equal. apply map_ext_in. intros [[i j] k] Hin. apply H. apply in_cells. exact Hin.
Qed.

Lemma val_of_fun s f i j k : in_shape s i j k -> val (of_fun s f) i j k = f i j k.
Proof.
  intros H. unfold val, of_fun; cbn [data tshape].
  apply nth_error_nth. apply (map_nth_error (fun '(i, j, k) => f i j k) _ _ (d := (i, j, k))).
  rewrite nth_error_nth' with (d := (0, 0, 0)).
  - rewrite nth_cells by assumption. reflexivity.
  - rewrite length_cells. pose proof (flat_lt _ _ _ _ H). lia.
Qed.

Lemma of_fun_inj s f g : of_fun s f = of_fun s g -> forall i j k, in_shape s i j k -> f i j k = g i j k.
Proof.
  intros E i j k H. rewrite <- (val_of_fun s f i j k H), <- (val_of_fun s g i j k H), E. reflexivity.
Qed.

Lemma wf_eq (t : T) : wf t -> t = of_fun (tshape t) (val t).
Proof.
  intros (Ha & Hs & Hl). destruct t as [st s d]; cbn [tshape strides data] in *. subst st.
  unfold of_fun. f_equal. apply nth_ext with (d := fzero) (d' := fzero).
  - rewrite map_length, length_cells. unfold len in Hl. lia.
  - intros n Hn. unfold len in Hl.
    destruct (flat_surj s (N.of_nat n)) as (i & j & k & Hin & Hf); [lia|].
    replace n with (N.to_nat (flat s i j k)) by lia.
    change (map _ (cells s)) with (data (of_fun s (val (mkTensor (strides_of s) s d)))).
    symmetry. apply (val_of_fun s (val (mkTensor (strides_of s) s d))). exact Hin.
Qed.

Lemma strides_wf (t : T) : wf t -> strides t = strides_of (tshape t).
Proof. intros (_ & H & _). exact H. Qed.

Lemma len_data_wf (t : T) : wf t -> len (data t) = di (tshape t) * dj (tshape t) * dk (tshape t).
Proof. intros (_ & _ & H). exact H. Qed.

(** ** Primitive accesses *)
Lemma data_index_wf bm (t : T) i j k :
  wf t -> in_shape (tshape t) i j k -> get_data_index bm t (mkIndex i j k) = Done (flat (tshape t) i j k).
Proof.
  intros Hwf Hin. unfold get_data_index. rewrite strides_wf by assumption.
  apply stride_mul_done; [apply wf_alloc; assumption|assumption].
Qed.

Lemma data_get_wf (t : T) i j k :
  wf t -> in_shape (tshape t) i j k -> data_get t (flat (tshape t) i j k) = Done (val t i j k).
Proof.
  intros Hwf Hin. unfold data_get. rewrite vget_nth with (d := fzero); [reflexivity|].
  rewrite len_data_wf by assumption. apply flat_lt. exact Hin.
Qed.

Definition upd (f : N -> N -> N -> F) (x : N * N * N) (v : F) (i j k : N) : F :=
  let '(i', j', k') := x in if (i =? i') && (j =? j') && (k =? k') then v else f i j k.

Lemma data_set_of_fun s f i j k v :
  in_shape s i j k -> data_set (of_fun s f) (flat s i j k) v = Done (of_fun s (upd f (i, j, k) v)).
Proof.
  intros Hin. unfold data_set.
  assert (Hlt : flat s i j k < len (data (of_fun s f))).
  { unfold len, of_fun; cbn [data]. rewrite map_length, length_cells. pose proof (flat_lt _ _ _ _ Hin). lia. }
  rewrite vset_done by exact Hlt. cbn [bind]. unfold with_data, of_fun at 1 2; cbn [strides tshape].
  unfold of_fun at 2. f_equal. f_equal.
  apply nth_ext with (d := fzero) (d' := fzero).
  - rewrite length_list_set. unfold of_fun; cbn [data]. rewrite !map_length. reflexivity.
  - intros n Hn. rewrite length_list_set in Hn. unfold of_fun in Hn; cbn [data] in Hn.
    rewrite map_length, length_cells in Hn.
    rewrite nth_list_set by (unfold len in Hlt; lia).
    destruct (flat_surj s (N.of_nat n)) as (i1 & j1 & k1 & Hin1 & Hf1); [lia|].
    replace n with (N.to_nat (flat s i1 j1 k1)) by lia.
    change (nth (N.to_nat (flat s i1 j1 k1)) (data (of_fun s f)) fzero) with (val (of_fun s f) i1 j1 k1).
    change (map _ (cells s)) with (data (of_fun s (upd f (i, j, k) v))).
    change (nth (N.to_nat (flat s i1 j1 k1)) (data (of_fun s (upd f (i, j, k) v))) fzero)
      with (val (of_fun s (upd f (i, j, k) v)) i1 j1 k1).
    rewrite !val_of_fun by assumption. unfold upd.
    destruct (Nat.eqb_spec (N.to_nat (flat s i1 j1 k1)) (N.to_nat (flat s i j k))) as [E|E].
    + apply N2Nat.inj in E. apply flat_inj in E; try assumption. destruct E as (-> & -> & ->).
      rewrite !N.eqb_refl. reflexivity.
    + destruct (N.eqb_spec i1 i), (N.eqb_spec j1 j), (N.eqb_spec k1 k); simpl; try reflexivity.
      subst. contradiction.
Qed.

Lemma data_index_of_fun bm s f i j k :
  allocatable s -> in_shape s i j k -> get_data_index bm (of_fun s f) (mkIndex i j k) = Done (flat s i j k).
Proof. intros. apply (data_index_wf bm (of_fun s f)); [apply wf_of_fun|]; assumption. Qed.

Lemma data_get_of_fun s f i j k :
  allocatable s -> in_shape s i j k -> data_get (of_fun s f) (flat s i j k) = Done (f i j k).
Proof.
  intros Ha Hin. rewrite (data_get_wf (of_fun s f)); [|apply wf_of_fun|]; try assumption.
  rewrite val_of_fun by assumption. reflexivity.
Qed.

Lemma get_item_wf bm (t : T) i j k :
  wf t -> get_item bm t (mkIndex i j k) = Done (if in_shapeb (tshape t) i j k then val t i j k else fzero).
Proof.
  intros Hwf. unfold get_item. rewrite fits_index_in. destruct (in_shapeb_spec (tshape t) i j k) as [Hin|]; [|reflexivity].
  rewrite data_index_wf by assumption. cbn [bind]. apply data_get_wf; assumption.
Qed.

Lemma get_item_of_fun bm s f i j k :
  allocatable s -> in_shape s i j k -> get_item bm (of_fun s f) (mkIndex i j k) = Done (f i j k).
Proof.
  intros Ha Hin. rewrite get_item_wf by (apply wf_of_fun; assumption). cbn [tshape of_fun].
  destruct (in_shapeb_spec s i j k); [|contradiction]. rewrite val_of_fun by assumption. reflexivity.
Qed.

Lemma set_item_of_fun bm s f i j k v :
  allocatable s -> in_shape s i j k ->
  set_item bm (of_fun s f) (mkIndex i j k) v = Done (of_fun s (upd f (i, j, k) v)).
Proof.
  intros Ha Hin. unfold set_item. rewrite fits_index_in. cbn [tshape of_fun].
  destruct (in_shapeb_spec s i j k); [|contradiction].
  rewrite data_index_of_fun by assumption. cbn [bind]. apply data_set_of_fun. assumption.
Qed.

Lemma set_item_out bm (t : T) i j k v :
  ~ in_shape (tshape t) i j k -> set_item bm t (mkIndex i j k) v = Done t.
Proof.
  intros H. unfold set_item. rewrite fits_index_in. destruct (in_shapeb_spec (tshape t) i j k); [contradiction|reflexivity].
Qed.

(** ** reads *)
Lemma reads_val bm (t : T) : wf t -> reads bm t (val t).
Proof.
  intros Hwf i j k Hin. rewrite get_item_wf by assumption.
  destruct (in_shapeb_spec (tshape t) i j k); [reflexivity|contradiction].
Qed.

Lemma reads_eq bm (t : T) f : wf t -> reads bm t f -> forall i j k, in_shape (tshape t) i j k -> val t i j k = f i j k.
Proof.
  intros Hwf H i j k Hin. specialize (H i j k Hin). rewrite reads_val in H by assumption. congruence.
Qed.

Lemma reads_of_fun bm s f : allocatable s -> reads bm (of_fun s f) f.
Proof. intros Ha i j k Hin. apply get_item_of_fun; assumption. Qed.

Lemma reads_wf_eq bm (t : T) f : wf t -> reads bm t f -> t = of_fun (tshape t) f.
Proof.
  intros Hwf H. rewrite (wf_eq t Hwf) at 1. apply of_fun_ext. eapply reads_eq; eassumption.
Qed.

(** ** A loop writing cells *)
Definition memb (l : list (N * N * N)) (i j k : N) : bool :=
  existsb (fun '(i', j', k') => (i =? i') && (j =? j') && (k =? k')) l.

Lemma memb_spec l i j k : reflect (In (i, j, k) l) (memb l i j k).
Proof.
  apply iff_reflect. unfold memb. rewrite existsb_exists. split.
  - intros H. exists (i, j, k). split; [exact H|]. rewrite !N.eqb_refl. reflexivity.
  - intros ([[i' j'] k'] & H & E). apply andb_prop in E. destruct E as (E & E3).
    apply andb_prop in E. destruct E as (E1 & E2).
    apply N.eqb_eq in E1, E2, E3. subst. exact H.
Qed.

Lemma forM_write s (l : list (N * N * N)) (body : N * N * N -> T -> res T) (v : N -> N -> N -> F) f :
  (forall i j k f, In (i, j, k) l -> body (i, j, k) (of_fun s f) = Done (of_fun s (upd f (i, j, k) (v i j k)))) ->
  forM l body (of_fun s f)
  = Done (of_fun s (fun i j k => if memb l i j k then v i j k else f i j k)).
Proof.
  revert f; induction l as [|[[i0 j0] k0] l IH]; intros f H; simpl.
  - reflexivity.
  - rewrite H by (left; reflexivity). cbn [bind]. rewrite IH by (intros; apply H; right; assumption).
    f_equal. apply of_fun_ext. intros i j k _. unfold upd.
    destruct (memb l i j k); [rewrite orb_true_r; reflexivity|]. rewrite orb_false_r.
    destruct (N.eqb_spec i i0), (N.eqb_spec j j0), (N.eqb_spec k k0); simpl; subst; reflexivity.
Qed.

(** Writing every cell. *)
Lemma for_kji_write s (body : N -> N -> N -> T -> res T) (v : N -> N -> N -> F) f :
  (forall i j k f, in_shape s i j k -> body i j k (of_fun s f) = Done (of_fun s (upd f (i, j, k) (v i j k)))) ->
  for_kji s body (of_fun s f) = Done (of_fun s v).
Proof.
  intros H. rewrite for_kji_cells.
  rewrite forM_write with (v := v) by (intros i j k f' Hin; apply H; apply in_cells; exact Hin).
  f_equal. apply of_fun_ext. intros i j k Hin.
  destruct (memb_spec (cells s) i j k) as [|n]; [reflexivity|]. exfalso. apply n. apply in_cells. exact Hin.
Qed.

(** ** Construction *)
Lemma repeat_map_const {A B} (x : B) (l : list A) : repeat x (length l) = map (fun _ => x) l.
Proof. induction l; simpl; congruence. Qed.

Lemma tensor_new_done bm s : allocatable s -> tensor_new bm s = Done (of_fun s (fun _ _ _ => fzero)).
Proof.
  intros Ha. unfold tensor_new. rewrite total_size_done by assumption. cbn [bind].
  rewrite stride_of_shape_done by assumption. cbn [bind]. f_equal. unfold of_fun. f_equal.
  rewrite <- length_cells, repeat_map_const. apply map_ext. intros [[i j] k]. reflexivity.
Qed.

Lemma allocatable_111 : allocatable (mkShape 1 1 1).
Proof. unfold allocatable, W32; simpl. repeat split; reflexivity. Qed.

Lemma tensor_empty_done bm : tensor_empty bm = Done (of_fun (mkShape 1 1 1) (fun _ _ _ => fzero)).
Proof. apply tensor_new_done. apply allocatable_111. Qed.

Lemma fill_with_value_of_fun s f v : fill_with_value (of_fun s f) v = of_fun s (fun _ _ _ => v).
Proof.
  unfold fill_with_value, with_data, of_fun; cbn [strides tshape data]. f_equal.
  rewrite map_map. apply map_ext. intros [[i j] k]. reflexivity.
Qed.

(** ** Element-wise operations *)
Lemma zip_with_cells s (op : F -> F -> F) f g :
  zip_with op (data (of_fun s f)) (data (of_fun s g)) = data (of_fun s (fun i j k => op (f i j k) (g i j k))).
Proof. unfold of_fun; cbn [data]. rewrite zip_with_map. apply map_ext. intros [[i j] k]. reflexivity. Qed.

Lemma zip_update_cells s (op : F -> F -> F) f g :
  zip_update op (data (of_fun s f)) (data (of_fun s g)) = data (of_fun s (fun i j k => op (f i j k) (g i j k))).
Proof. unfold of_fun; cbn [data]. rewrite zip_update_map. apply map_ext. intros [[i j] k]. reflexivity. Qed.

Lemma with_data_of_fun s f g : with_data (of_fun s f) (data (of_fun s g)) = of_fun s g.
Proof. reflexivity. Qed.

Lemma add_of_fun s f g h : add (of_fun s f) (of_fun s g) (of_fun s h) = of_fun s (fun i j k => fadd (f i j k) (g i j k)).
Proof.
  unfold add. cbn [tshape of_fun]. rewrite !shape_eqb_refl. cbn [andb].
  fold (of_fun s f) (of_fun s g) (of_fun s h). rewrite zip_with_cells, zip_update_cells. apply with_data_of_fun.
Qed.

Lemma multiply_elementwise_of_fun s f g h :
  multiply_elementwise (of_fun s f) (of_fun s g) (of_fun s h) = of_fun s (fun i j k => fmul (f i j k) (g i j k)).
Proof.
  unfold multiply_elementwise. cbn [tshape of_fun]. rewrite !shape_eqb_refl. cbn [andb].
  fold (of_fun s f) (of_fun s g) (of_fun s h). rewrite zip_with_cells, zip_update_cells. apply with_data_of_fun.
Qed.

Lemma add_to_self_of_fun s f g : add_to_self (of_fun s f) (of_fun s g) = of_fun s (fun i j k => fadd (f i j k) (g i j k)).
Proof.
  unfold add_to_self. cbn [tshape of_fun]. rewrite !shape_eqb_refl.
  fold (of_fun s f) (of_fun s g). rewrite zip_update_cells. apply with_data_of_fun.
Qed.

Lemma multiply_elementwise_self_of_fun s f g :
  multiply_elementwise_self (of_fun s f) (of_fun s g) = of_fun s (fun i j k => fmul (f i j k) (g i j k)).
Proof.
  unfold multiply_elementwise_self. cbn [tshape of_fun]. rewrite !shape_eqb_refl.
  fold (of_fun s f) (of_fun s g). rewrite zip_update_cells. apply with_data_of_fun.
Qed.

Lemma scale_of_fun s f c h : scale (of_fun s f) c (of_fun s h) = of_fun s (fun i j k => fmul (f i j k) c).
Proof.
  unfold scale. cbn [tshape of_fun]. rewrite !shape_eqb_refl.
  fold (of_fun s f) (of_fun s h).
  rewrite (zip_update_cells s (fun _ op => fmul op c)). apply with_data_of_fun.
Qed.

Lemma scale_self_of_fun s f c : scale_self (of_fun s f) c = of_fun s (fun i j k => fmul (f i j k) c).
Proof.
  unfold scale_self, with_data, of_fun; cbn [strides tshape data]. f_equal.
  rewrite map_map. apply map_ext. intros [[i j] k]. reflexivity.
Qed.

Lemma relu_mask_loop_map {X} (f g : X -> F) l :
  relu_mask_loop (map f l) (map g l)
  = (map (fun x => if fgtb (f x) fzero then f x else fzero) l,
     map (fun x => if fgtb (f x) fzero then fone else fzero) l).
Proof.
  induction l as [|a l IH]; simpl; [reflexivity|]. rewrite IH. destruct (fgtb (f a) fzero); reflexivity.
Qed.

Lemma relu_mask_of_fun s f g :
  relu_self_and_store_mask (of_fun s f) (of_fun s g)
  = (of_fun s (fun i j k => if fgtb (f i j k) fzero then f i j k else fzero),
     of_fun s (fun i j k => if fgtb (f i j k) fzero then fone else fzero), Ok tt).
Proof.
  unfold relu_self_and_store_mask, get_shape. cbn [tshape of_fun]. rewrite shape_eqb_refl. cbn [negb].
  cbn [data of_fun]. rewrite relu_mask_loop_map. unfold with_data, of_fun; cbn [strides tshape].
  f_equal. f_equal; f_equal; apply map_ext; intros [[i j] k]; reflexivity.
Qed.

(** ** Transposition and matrix products *)
Ltac cells_solve := unfold in_shape in *; cbn [di dj dk] in *; lia.

Definition swap_shape (s : shape) : shape := mkShape (dj s) (di s) (dk s).

Lemma transpose_of_fun bm s f g :
  allocatable s -> allocatable (swap_shape s) ->
  transpose_ij bm (of_fun s f) (of_fun (swap_shape s) g)
  = Done (of_fun (swap_shape s) (fun i j k => f j i k), Ok tt).
Proof.
  intros Ha Hb. unfold transpose_ij, get_shape. cbn [tshape of_fun].
  unfold swap_shape at 1 2 3; cbn [di dj dk]. rewrite !N.eqb_refl. cbn [negb].
  fold (of_fun s f) (of_fun (swap_shape s) g).
  rewrite for_kji_write with (v := fun i j k => f j i k); [reflexivity|].
  intros i j k f' Hin. rewrite data_index_of_fun by assumption. cbn [bind].
  assert (Hin' : in_shape s j i k) by (unfold in_shape, swap_shape in *; cbn [di dj dk] in *; lia).
  rewrite data_index_of_fun by assumption. cbn [bind].
  rewrite data_get_of_fun by assumption. cbn [bind]. apply data_set_of_fun. assumption.
Qed.

Lemma dot_loop_of_fun bm n s1 f1 s2 f2 ix1 ix2 :
  allocatable s1 -> allocatable s2 ->
  (forall ii, ii < n -> in_shape s1 (ix (ix1 ii)) (jx (ix1 ii)) (kx (ix1 ii))) ->
  (forall ii, ii < n -> in_shape s2 (ix (ix2 ii)) (jx (ix2 ii)) (kx (ix2 ii))) ->
  dot_loop bm n (of_fun s1 f1) (of_fun s2 f2) ix1 ix2
  = Done (sum (map (fun ii => fmul (f1 (ix (ix1 ii)) (jx (ix1 ii)) (kx (ix1 ii)))
                                   (f2 (ix (ix2 ii)) (jx (ix2 ii)) (kx (ix2 ii)))) (upto n))).
Proof.
  intros Ha1 Ha2 H1 H2. unfold dot_loop, for_, sum. rewrite Nrange_upto. apply forM_acc.
  intros ii acc Hin. apply in_upto in Hin. specialize (H1 ii Hin). specialize (H2 ii Hin).
  destruct (ix1 ii) as [i1 j1 k1], (ix2 ii) as [i2 j2 k2]; cbn [ix jx kx] in *.
  rewrite !data_index_of_fun by assumption. cbn [bind].
  rewrite !data_get_of_fun by assumption. reflexivity.
Qed.

Lemma check_mm_true s1 s2 sr :
  check_matrix_multiply_dimensions s1 s2 sr = true <->
  dk s1 = dk s2 /\ dk s1 = dk sr /\ dj s1 = di s2 /\ di s1 = di sr /\ dj s2 = dj sr.
Proof.
  unfold check_matrix_multiply_dimensions.
  destruct (N.eqb_spec (dk s1) (dk s2)), (N.eqb_spec (dk s1) (dk sr)), (N.eqb_spec (dj s1) (di s2)),
    (N.eqb_spec (di s1) (di sr)), (N.eqb_spec (dj s2) (dj sr)); simpl; split; intros; try discriminate; try lia; auto.
Qed.

Definition mm_fn (n : N) (f1 f2 : N -> N -> N -> F) (i j k : N) : F :=
  sum (map (fun ii => fmul (f1 i ii k) (f2 ii j k)) (upto n)).

Ltac mm_body :=
  intros i j k f' Hin; rewrite dot_loop_of_fun by
    (try assumption; intros ii Hii; cbn [ix jx kx];
     unfold in_shape, shape_transpose_ij in *; cbn [di dj dk] in *; lia);
  cbn [bind ix jx kx]; rewrite data_index_of_fun by assumption; cbn [bind]; apply data_set_of_fun; assumption.

Lemma matrix_multiply_of_fun bm s1 f1 s2 f2 sr g :
  allocatable s1 -> allocatable s2 -> allocatable sr ->
  check_matrix_multiply_dimensions s1 s2 sr = true ->
  matrix_multiply bm (of_fun s1 f1) (of_fun s2 f2) (of_fun sr g) = Done (of_fun sr (mm_fn (dj s1) f1 f2)).
Proof.
  intros Ha1 Ha2 Har C. unfold matrix_multiply, get_shape. cbn [tshape of_fun]. rewrite C.
  apply check_mm_true in C. fold (of_fun s1 f1) (of_fun s2 f2) (of_fun sr g).
  apply for_kji_write with (v := mm_fn (dj s1) f1 f2). mm_body.
Qed.

Lemma matrix_multiply_first_of_fun bm s1 f1 s2 f2 sr g :
  allocatable s1 -> allocatable s2 -> allocatable sr ->
  check_matrix_multiply_dimensions (swap_shape s1) s2 sr = true ->
  matrix_multiply_transpose_first bm (of_fun s1 f1) (of_fun s2 f2) (of_fun sr g)
  = Done (of_fun sr (mm_fn (di s1) (fun i j k => f1 j i k) f2), Ok tt).
Proof.
  intros Ha1 Ha2 Har C. unfold matrix_multiply_transpose_first, get_shape. cbn [tshape of_fun].
  change shape_transpose_ij with swap_shape. rewrite C. cbn [negb].
  apply check_mm_true in C. unfold swap_shape in C; cbn [di dj dk] in C.
  fold (of_fun s1 f1) (of_fun s2 f2) (of_fun sr g).
  rewrite for_kji_write with (v := mm_fn (di s1) (fun i j k => f1 j i k) f2); [reflexivity|]. mm_body.
Qed.

Lemma matrix_multiply_second_of_fun bm s1 f1 s2 f2 sr g :
  allocatable s1 -> allocatable s2 -> allocatable sr ->
  check_matrix_multiply_dimensions s1 (swap_shape s2) sr = true ->
  matrix_multiply_transpose_second bm (of_fun s1 f1) (of_fun s2 f2) (of_fun sr g)
  = Done (of_fun sr (mm_fn (dj s1) f1 (fun i j k => f2 j i k)), Ok tt).
Proof.
  intros Ha1 Ha2 Har C. unfold matrix_multiply_transpose_second, get_shape. cbn [tshape of_fun].
  change shape_transpose_ij with swap_shape. rewrite C. cbn [negb].
  apply check_mm_true in C. unfold swap_shape in C; cbn [di dj dk] in C.
  fold (of_fun s1 f1) (of_fun s2 f2) (of_fun sr g).
  rewrite for_kji_write with (v := mm_fn (dj s1) f1 (fun i j k => f2 j i k)); [reflexivity|]. mm_body.
Qed.

Lemma matrix_multiply_add_relu_of_fun bm si fi sw fw sb fb sr g :
  allocatable si -> allocatable sw -> allocatable sr ->
  check_matrix_multiply_dimensions sw si sr = true -> sb = sr ->
  matrix_multiply_add_relu bm (of_fun si fi) (of_fun sw fw) (of_fun sb fb) (of_fun sr g)
  = Done (of_fun sr (fun i j k => fmax (fadd (mm_fn (dj sw) fw fi i j k) (fb i j k)) fzero)).
Proof.
  intros Ha1 Ha2 Har C ->. unfold matrix_multiply_add_relu, get_shape. cbn [tshape of_fun]. rewrite C, shape_eqb_refl.
  apply check_mm_true in C. fold (of_fun si fi) (of_fun sw fw) (of_fun sr g) (of_fun sr fb).
  apply for_kji_write with (v := fun i j k => fmax (fadd (mm_fn (dj sw) fw fi i j k) (fb i j k)) fzero).
  intros i j k f' Hin. rewrite dot_loop_of_fun by
    (try assumption; intros ii Hii; cbn [ix jx kx]; unfold in_shape in *; cbn [di dj dk] in *; lia).
  cbn [bind ix jx kx]. rewrite !data_index_of_fun by assumption. cbn [bind].
  rewrite data_get_of_fun by assumption. cbn [bind]. apply data_set_of_fun; assumption.
Qed.

End Facts.
