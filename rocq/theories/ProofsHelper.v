(** * Proofs for C89 and C90 *)
From Coq Require Import FinFun ZifyBool ZifyNat ZifyN.
From Verif Require Import Base Arith Helper Tensor Network Float32 Spec SpecLayer SpecTrain Loops TensorFacts ProofsTensor.

Lemma shape_constructors i j k :
  let '(a, b, c) := shape_get (shape_new i j k) in
  (0 < i -> a = i) /\ (0 < j -> b = j) /\ (0 < k -> c = k) /\ (i = 0 -> a = 1) /\ (j = 0 -> b = 1) /\ (k = 0 -> c = 1)
  /\ shape_get (shape_1d i) = (i, 1, 1) /\ shape_get (shape_2d i j) = (i, j, 1) /\ shape_get (mkShape i j k) = (i, j, k).
Proof. unfold shape_new, shape_get, shape_1d, shape_2d. cbn [di dj dk]. repeat split; lia. Qed.

Lemma shape_eq_get a b : shape_eqb a b = true <-> shape_get a = shape_get b.
Proof.
  unfold shape_eqb, shape_get. destruct a as [a1 a2 a3], b as [b1 b2 b3]. cbn [di dj dk]. split; [intros; repeat f_equal; lia|]. intros E. injection E as -> -> ->. lia.
Qed.

Lemma fits_iff s x : fits_index s x = true <-> let '(a, b, c) := shape_get s in ix x < a /\ jx x < b /\ kx x < c.
Proof. destruct x as [i j k]. rewrite fits_index_in. unfold in_shapeb, shape_get. cbn [ix jx kx]. lia. Qed.

Lemma index_constructors i j n m : fits_index (shape_1d n) (index_1d i) = (i <? n) /\ fits_index (shape_2d n m) (index_2d i j) = ((i <? n) && (j <? m))%bool
  /\ (forall a b c, fits_index (shape_new a b c) index_zero = true)
  /\ index_2d i 0 = index_1d i /\ index_1d 0 = index_zero.
Proof.
  split; [|split; [|split; [|split; reflexivity]]]; [| |intros a b c]; apply Bool.eq_iff_eq_true; rewrite fits_iff; cbn; lia.
Qed.

Lemma fitting_indices bm s : allocatable s ->
  exists l, NoDup l /\ (forall x, In x l <-> fits_index s x = true) /\ total_size bm s = Done (len l).
Proof.
  intros A. rewrite total_size_done by exact A.
  exists (map (fun '(i, j, k) => mkIndex i j k) (cells s)). split; [|split].
  - apply Injective_map_NoDup; [|apply NoDup_cells]. intros ((a & b) & c) ((a' & b') & c') E. injection E as -> -> ->. reflexivity.
  - intros [i j k]. rewrite fits_index_in, in_map_iff. destruct (in_shapeb_spec s i j k) as [H|H]; (split; [|try (intros; discriminate)]); intros Q; try reflexivity.
    + exists (i, j, k). split; [reflexivity|]. apply in_cells. exact H.
    + destruct Q as (((a & b) & c) & E & I). injection E as -> -> ->. apply in_cells in I. elim (H I).
  - unfold len. rewrite map_length, length_cells. f_equal. lia.
Qed.

Lemma transposed s x : fits_index (shape_transpose_ij s) (mkIndex (jx x) (ix x) (kx x)) = fits_index s x /\ shape_transpose_ij (shape_transpose_ij s) = s.
Proof. split; [|destruct s; reflexivity]. apply Bool.eq_iff_eq_true. rewrite !fits_iff. cbn. destruct s; cbn. lia. Qed.

Lemma size_debug s n : total_size Debug s = Done n <-> (di s * dj s < W32 /\ di s * dj s * dk s < W32 /\ n = di s * dj s * dk s).
Proof.
  unfold total_size, u32_mul. destruct (N.ltb_spec (di s * dj s) W32); cbn [bind]; [|split; [discriminate|lia]].
  destruct (N.ltb_spec (di s * dj s * dk s) W32); [|split; [discriminate|lia]]. split; [intros E; injection E as <-; auto|intros (_ & _ & ->); reflexivity].
Qed.

(** ** C90 *)
Lemma apply_gradients_nothing {F} {AR : Arith F} (l : layer F) : apply_gradients l = l.
Proof. reflexivity. Qed.
