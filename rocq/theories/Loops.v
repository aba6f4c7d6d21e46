(** * Facts about loops, ranges and vectors *)
From Coq Require Import ZifyBool ZifyNat ZifyN.
From Verif Require Import Base Arith Helper Tensor Spec.
Ltac Zify.zify_post_hook ::= Z.div_mod_to_equations.

Arguments N.add : simpl never.
Arguments N.mul : simpl never.
Arguments N.sub : simpl never.
Arguments N.div : simpl never.
Arguments N.modulo : simpl never.
Arguments N.ltb : simpl never.
Arguments N.leb : simpl never.
Arguments N.eqb : simpl never.

(** ** res *)
Lemma bind_done {A B} (e : res A) (f : A -> res B) b :
  bind e f = Done b <-> exists a, e = Done a /\ f a = Done b.
Proof.
  destruct e; simpl; split; intros H; try discriminate; eauto.
  - destruct H as (x & [= ->] & H); exact H.
  - destruct H as (x & H & _); discriminate.
Qed.

(** ** Ranges *)
Lemma Nrange_upto n : Nrange 0 n = upto n.
Proof.
  unfold Nrange, upto. rewrite N.sub_0_r. apply map_ext. intros; lia.
Qed.

Lemma in_Nrange lo hi x : In x (Nrange lo hi) <-> lo <= x < hi.
Proof.
  unfold Nrange. rewrite in_map_iff. split.
  - intros (n & <- & H). apply in_seq in H. lia.
  - intros H. exists (N.to_nat (x - lo)). split; [lia|]. apply in_seq. lia.
Qed.

Lemma in_upto n x : In x (upto n) <-> x < n.
Proof. rewrite <- Nrange_upto, in_Nrange. lia. Qed.

Lemma upto_succ n : upto (N.succ n) = upto n ++ [n].
Proof.
  unfold upto. rewrite N2Nat.inj_succ, seq_S, map_app. cbn [map]. rewrite Nat.add_0_l, N2Nat.id. reflexivity.
Qed.

Lemma length_upto n : length (upto n) = N.to_nat n.
Proof. unfold upto. rewrite map_length, seq_length. reflexivity. Qed.

Lemma upto_0 : upto 0 = [].
Proof. reflexivity. Qed.

Lemma nth_upto n p d : p < n -> nth (N.to_nat p) (upto n) d = p.
Proof.
  intros H. unfold upto.
  rewrite nth_indep with (d' := N.of_nat 0) by (rewrite map_length, seq_length; lia).
  rewrite map_nth, seq_nth by lia. lia.
Qed.

Lemma Nrange_nil lo hi : hi <= lo -> Nrange lo hi = [].
Proof.
  intros H. unfold Nrange. replace (N.to_nat (hi - lo)) with 0%nat by lia. reflexivity.
Qed.

(** ** forM *)
Lemma forM_app {A S} (l1 l2 : list A) (f : A -> S -> res S) s :
  forM (l1 ++ l2) f s = bind (forM l1 f s) (forM l2 f).
Proof.
  revert s; induction l1 as [|x l1 IH]; intros s; simpl; [reflexivity|].
  destruct (f x s); simpl; auto.
Qed.

Lemma forM_map {A B S} (g : A -> B) (l : list A) (f : B -> S -> res S) s :
  forM (map g l) f s = forM l (fun x => f (g x)) s.
Proof.
  revert s; induction l as [|x l IH]; intros s; simpl; [reflexivity|].
  destruct (f (g x) s); simpl; auto.
Qed.

Lemma forM_ext {A S} (l : list A) (f g : A -> S -> res S) s :
  (forall x s, In x l -> f x s = g x s) -> forM l f s = forM l g s.
Proof.
  revert s; induction l as [|x l IH]; intros s H; simpl; [reflexivity|].
  rewrite H by (left; reflexivity). destruct (g x s); simpl; auto.
  apply IH. intros; apply H; right; assumption.
Qed.

Lemma forM_flat_map {A B S} (g : A -> list B) (l : list A) (f : B -> S -> res S) s :
  forM (flat_map g l) f s = forM l (fun x => forM (g x) f) s.
Proof.
  revert s; induction l as [|x l IH]; intros s; simpl; [reflexivity|].
  rewrite forM_app. destruct (forM (g x) f s); simpl; auto.
Qed.

(** A loop whose body always completes, adding one more term to an accumulator. *)
Lemma forM_acc {A S B} (op : S -> B -> S) (g : A -> B) (l : list A) (f : A -> S -> res S) s :
  (forall x s, In x l -> f x s = Done (op s (g x))) ->
  forM l f s = Done (fold_left op (map g l) s).
Proof.
  revert s; induction l as [|x l IH]; intros s H; simpl; [reflexivity|].
  rewrite H by (left; reflexivity). simpl. apply IH. intros; apply H; right; assumption.
Qed.

(** The same with a whole list of terms per step. *)
Lemma forM_acc_flat {A S B} (op : S -> B -> S) (g : A -> list B) (l : list A) (f : A -> S -> res S) s :
  (forall x s, In x l -> f x s = Done (fold_left op (g x) s)) ->
  forM l f s = Done (fold_left op (flat_map g l) s).
Proof.
  revert s; induction l as [|x l IH]; intros s H; simpl; [reflexivity|].
  rewrite H by (left; reflexivity). simpl. rewrite fold_left_app. apply IH.
  intros; apply H; right; assumption.
Qed.

Lemma forM_done_inv {A S} (P : S -> Prop) (l : list A) (f : A -> S -> res S) s s' :
  P s -> (forall x s s', In x l -> P s -> f x s = Done s' -> P s') ->
  forM l f s = Done s' -> P s'.
Proof.
  revert s; induction l as [|x l IH]; intros s Hs H E; simpl in E; [congruence|].
  apply bind_done in E. destruct E as (s1 & E1 & E2).
  eapply IH; [eapply H; [left; reflexivity|exact Hs|exact E1]| |exact E2].
  intros; eapply H; eauto; right; assumption.
Qed.

Lemma for_kji_cells {S} (s : shape) (body : N -> N -> N -> S -> res S) (st : S) :
  for_kji s body st = forM (cells s) (fun '(i, j, k) => body i j k) st.
Proof.
  unfold for_kji, cells, for_. rewrite Nrange_upto, forM_flat_map.
  apply forM_ext; intros k s1 _. rewrite Nrange_upto, forM_flat_map.
  apply forM_ext; intros j s2 _. rewrite Nrange_upto, forM_map. reflexivity.
Qed.

Lemma in_cells s i j k : In (i, j, k) (cells s) <-> in_shape s i j k.
Proof.
  unfold cells, in_shape. rewrite in_flat_map. split.
  - intros (k' & Hk & H). rewrite in_flat_map in H. destruct H as (j' & Hj & H).
    rewrite in_map_iff in H. destruct H as (i' & [= -> -> ->] & Hi).
    rewrite in_upto in *. auto.
  - intros (Hi & Hj & Hk). exists k. rewrite in_upto. split; [exact Hk|].
    rewrite in_flat_map. exists j. rewrite in_upto. split; [exact Hj|].
    rewrite in_map_iff. exists i. rewrite in_upto. auto.
Qed.

Lemma length_flat_map_const {A B} (g : A -> list B) n l :
  (forall x, In x l -> length (g x) = n) -> length (flat_map g l) = (length l * n)%nat.
Proof.
  induction l as [|a l IH]; simpl; intros H; [reflexivity|].
  rewrite app_length, H, IH by auto. lia.
Qed.

Lemma length_cells s : length (cells s) = N.to_nat (di s * dj s * dk s).
Proof.
  unfold cells. rewrite length_flat_map_const with (n := N.to_nat (di s * dj s)).
  - rewrite length_upto. lia.
  - intros k _. rewrite length_flat_map_const with (n := N.to_nat (di s)).
    + rewrite length_upto. lia.
    + intros j _. rewrite map_length, length_upto. reflexivity.
Qed.

(** ** flat *)
Lemma in_bound a b c d : a < b -> c < d -> a + b * c < b * d.
Proof. nia. Qed.

Lemma flat_lt s i j k : in_shape s i j k -> flat s i j k < di s * dj s * dk s.
Proof.
  unfold in_shape, flat. intros (Hi & Hj & Hk). apply in_bound; [|exact Hk]. apply in_bound; assumption.
Qed.

Lemma flat_inj s i j k i' j' k' :
  in_shape s i j k -> in_shape s i' j' k' -> flat s i j k = flat s i' j' k' -> i = i' /\ j = j' /\ k = k'.
Proof.
  unfold in_shape, flat. intros (Hi & Hj & Hk) (Hi' & Hj' & Hk') H.
  assert (B : i + di s * j < di s * dj s) by (apply in_bound; assumption).
  assert (B' : i' + di s * j' < di s * dj s) by (apply in_bound; assumption).
  assert (k = k').
  { transitivity ((i + di s * j + di s * dj s * k) / (di s * dj s));
      [apply N.div_unique with (r := i + di s * j)|symmetry; apply N.div_unique with (r := i' + di s * j')]; lia. }
  subst k'.
  assert (E : i + di s * j = i' + di s * j') by lia.
  assert (j = j').
  { transitivity ((i + di s * j) / di s);
      [apply N.div_unique with (r := i)|symmetry; apply N.div_unique with (r := i')]; lia. }
  subst. lia.
Qed.

Lemma flat_surj s p : p < di s * dj s * dk s -> exists i j k, in_shape s i j k /\ flat s i j k = p.
Proof.
  intros H. assert (Hij : di s * dj s <> 0) by (intros E; rewrite E in H; lia).
  assert (Hd : di s <> 0) by (intros E; rewrite E in Hij; lia).
  exists (p mod (di s * dj s) mod di s), (p mod (di s * dj s) / di s), (p / (di s * dj s)).
  unfold in_shape, flat. repeat split.
  - apply N.mod_lt; assumption.
  - apply N.div_lt_upper_bound; [assumption|]. apply N.mod_lt; assumption.
  - apply N.div_lt_upper_bound; [assumption|]. exact H.
  - rewrite (N.add_comm (_ mod di s)), <- N.div_mod by assumption.
    rewrite N.add_comm, <- N.div_mod by assumption. reflexivity.
Qed.

(** The storage order: cell number [p] has position [p]. *)
Lemma nth_flat_map_const {A B} (g : A -> list B) n l da db p q :
  (forall x, In x l -> length (g x) = n) -> (q < n)%nat -> (p < length l)%nat ->
  nth (q + n * p) (flat_map g l) db = nth q (g (nth p l da)) db.
Proof.
  revert p; induction l as [|a l IH]; simpl; intros p H Hq Hp; [lia|].
  destruct p as [|p].
  - rewrite app_nth1 by (rewrite H by auto; lia). f_equal. lia.
  - rewrite app_nth2 by (rewrite H by auto; nia). rewrite H by auto.
    replace (q + n * S p - n)%nat with (q + n * p)%nat by nia. apply IH; auto. lia.
Qed.

Lemma nth_cells s i j k d : in_shape s i j k -> nth (N.to_nat (flat s i j k)) (cells s) d = (i, j, k).
Proof.
  unfold in_shape, flat. intros (Hi & Hj & Hk).
  assert (B : i + di s * j < di s * dj s) by (apply in_bound; assumption).
  replace (N.to_nat (i + di s * j + di s * dj s * k))
    with (N.to_nat (i + di s * j) + N.to_nat (di s * dj s) * N.to_nat k)%nat by lia.
  unfold cells.
  rewrite nth_flat_map_const with (da := 0); [|intros k' _|lia|rewrite length_upto; lia].
  2:{ rewrite length_flat_map_const with (n := N.to_nat (di s)).
      - rewrite length_upto. lia.
      - intros j' _. rewrite map_length, length_upto. reflexivity. }
  rewrite nth_upto by assumption.
  replace (N.to_nat (i + di s * j)) with (N.to_nat i + N.to_nat (di s) * N.to_nat j)%nat by lia.
  rewrite nth_flat_map_const with (da := 0); [|intros j' _|lia|rewrite length_upto; lia].
  2:{ rewrite map_length, length_upto. reflexivity. }
  rewrite nth_upto by assumption.
  rewrite nth_indep with (d' := (0, j, k)) by (rewrite map_length, length_upto; lia).
  rewrite (map_nth (fun i => (i, j, k))). rewrite nth_upto by assumption. reflexivity.
Qed.

Lemma NoDup_cells s : NoDup (cells s).
Proof.
  apply (NoDup_nth _ (0, 0, 0)). rewrite length_cells. intros p q Hp Hq E.
  destruct (flat_surj s (N.of_nat p)) as (i & j & k & Hin & Ef); [lia|].
  destruct (flat_surj s (N.of_nat q)) as (i' & j' & k' & Hin' & Ef'); [lia|].
  replace p with (N.to_nat (flat s i j k)) in * by lia.
  replace q with (N.to_nat (flat s i' j' k')) in * by lia.
  rewrite !nth_cells in E by assumption. congruence.
Qed.

(** ** Vectors *)
Lemma vget_nth {A} (l : list A) i d : i < len l -> vget l i = Done (nth (N.to_nat i) l d).
Proof.
  intros H. unfold vget. replace (i <? len l) with true by lia.
  rewrite nth_error_nth' with (d := d) by (unfold len in H; lia). reflexivity.
Qed.

Lemma vget_done {A} (l : list A) i x : vget l i = Done x -> i < len l /\ nth_error l (N.to_nat i) = Some x.
Proof.
  unfold vget. destruct (N.ltb_spec i (len l)); [|discriminate].
  destruct (nth_error l (N.to_nat i)); [|discriminate]. intros [= ->]. auto.
Qed.

Lemma vset_done {A} (l : list A) i x : i < len l -> vset l i x = Done (list_set l (N.to_nat i) x).
Proof. intros H. unfold vset. replace (i <? len l) with true by lia. reflexivity. Qed.

Lemma length_list_set {A} (l : list A) n x : length (list_set l n x) = length l.
Proof. revert n; induction l as [|a l IH]; intros [|n]; simpl; auto. Qed.

Lemma nth_list_set {A} (l : list A) n m x d :
  (n < length l)%nat -> nth m (list_set l n x) d = if Nat.eqb m n then x else nth m l d.
Proof.
  revert n m; induction l as [|a l IH]; intros n m H; simpl in *; [lia|].
  destruct n as [|n]; simpl.
  - destruct m; reflexivity.
  - destruct m as [|m]; simpl; [reflexivity|]. apply IH. lia.
Qed.

Lemma nth_error_list_set_same {A} (l : list A) n x :
  (n < length l)%nat -> nth_error (list_set l n x) n = Some x.
Proof. revert n; induction l as [|a l IH]; intros [|n] H; simpl in *; try lia; auto. apply IH; lia. Qed.

Lemma nth_error_list_set_other {A} (l : list A) n m x :
  n <> m -> nth_error (list_set l n x) m = nth_error l m.
Proof.
  revert n m; induction l as [|a l IH]; intros [|n] [|m] H; simpl in *; try reflexivity; try lia. apply IH; lia.
Qed.

Lemma len_list_set {A} (l : list A) n x : len (list_set l n x) = len l.
Proof. unfold len. rewrite length_list_set. reflexivity. Qed.

Lemma len_map {A B} (f : A -> B) l : len (map f l) = len l.
Proof. unfold len. rewrite map_length. reflexivity. Qed.

Lemma zip_with_map {A B C X} (f : A -> B -> C) (ga : X -> A) (gb : X -> B) l :
  zip_with f (map ga l) (map gb l) = map (fun x => f (ga x) (gb x)) l.
Proof. induction l; simpl; congruence. Qed.

Lemma zip_update_map {A B X} (f : A -> B -> A) (ga : X -> A) (gb : X -> B) l :
  zip_update f (map ga l) (map gb l) = map (fun x => f (ga x) (gb x)) l.
Proof. induction l; simpl; congruence. Qed.

(** ** u32 *)
Lemma u32_add_done bm x y : x + y < W32 -> u32_add bm x y = Done (x + y).
Proof. intros H. unfold u32_add. replace (x + y <? W32) with true by lia. reflexivity. Qed.

Lemma u32_mul_done bm x y : x * y < W32 -> u32_mul bm x y = Done (x * y).
Proof. intros H. unfold u32_mul. replace (x * y <? W32) with true by lia. reflexivity. Qed.

Lemma u32_sub_done bm x y : y <= x -> u32_sub bm x y = Done (x - y).
Proof. intros H. unfold u32_sub. replace (y <=? x) with true by lia. reflexivity. Qed.

Lemma u32_div_done x y : y <> 0 -> u32_div x y = Done (x / y).
Proof. intros H. unfold u32_div. replace (y =? 0) with false by lia. reflexivity. Qed.

Lemma u32_rem_done x y : y <> 0 -> u32_rem x y = Done (x mod y).
Proof. intros H. unfold u32_rem. replace (y =? 0) with false by lia. reflexivity. Qed.
