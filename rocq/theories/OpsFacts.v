(** * Scatter-add, softmax, pooling and convolution on well-formed tensors *)
From Coq Require Import ZifyBool ZifyNat ZifyN.
From Verif Require Import Base Arith Helper Tensor Convolution Spec Loops TensorFacts.
Ltac Zify.zify_post_hook ::= Z.div_mod_to_equations.

Lemma upto_cells s : upto (di s * dj s * dk s) = map (fun '(i, j, k) => flat s i j k) (cells s).
Proof.
  apply nth_ext with (d := 0) (d' := 0).
  - rewrite length_upto, map_length, length_cells. reflexivity.
  - intros n Hn. rewrite length_upto in Hn.
    destruct (flat_surj s (N.of_nat n)) as (i & j & k & Hin & Hf); [lia|].
    replace n with (N.to_nat (flat s i j k)) by lia.
    pose proof (flat_lt _ _ _ _ Hin).
    rewrite nth_upto by lia. symmetry. apply nth_error_nth.
    apply (map_nth_error (fun '(i, j, k) => flat s i j k) _ _ (d := (i, j, k))).
    rewrite nth_error_nth' with (d := (0, 0, 0)).
    + rewrite nth_cells by assumption. reflexivity.
    + rewrite length_cells. lia.
Qed.

(** ** tryM *)
Lemma tryM_app {A S} (l1 l2 : list A) (f : A -> S -> res (S * result unit)) s :
  tryM (l1 ++ l2) f s
  = bind (tryM l1 f s) (fun '(s', r) => match r with Ok _ => tryM l2 f s' | Err e => Done (s', Err e) end).
Proof.
  revert s; induction l1 as [|x l1 IH]; intros s; simpl; [reflexivity|].
  destruct (f x s) as [[s' [[]|e]]|p]; simpl; auto.
Qed.

Lemma tryM_ok {A S} (g : S -> A -> S) (l : list A) (f : A -> S -> res (S * result unit)) s :
  (forall x s, In x l -> f x s = Done (g s x, Ok tt)) -> tryM l f s = Done (fold_left g l s, Ok tt).
Proof.
  revert s; induction l as [|x l IH]; intros s H; simpl; [reflexivity|].
  rewrite H by (left; reflexivity). simpl. apply IH. intros; apply H; right; assumption.
Qed.

Lemma tryM_done_inv {A S} (P : S -> Prop) (l : list A) (f : A -> S -> res (S * result unit)) s s' r :
  P s -> (forall x s s' r, In x l -> P s -> f x s = Done (s', r) -> P s') ->
  tryM l f s = Done (s', r) -> P s'.
Proof.
  revert s; induction l as [|x l IH]; intros s Hs H E; simpl in E; [congruence|].
  apply bind_done in E. destruct E as ([s1 [[]|e]] & E1 & E2).
  - eapply IH; [eapply H; [left; reflexivity|exact Hs|exact E1]| |exact E2].
    intros; eapply H; eauto; right; assumption.
  - injection E2 as <- <-. eapply H; [left; reflexivity|exact Hs|exact E1].
Qed.

Section Facts.
Context {F : Type} {AR : Arith F}.
Notation T := (tensor F).

(** ** Scatter-add *)

(** The tensor of shape [s] whose storage position [p] holds [g p]. *)
Definition of_flat (s : shape) (g : N -> F) : T := of_fun s (fun i j k => g (flat s i j k)).

Lemma of_flat_ext s g h : (forall p, p < di s * dj s * dk s -> g p = h p) -> of_flat s g = of_flat s h.
Proof. intros H. apply of_fun_ext. intros i j k Hin. apply H. apply flat_lt. exact Hin. Qed.

Definition updf (g : N -> F) (p : N) (v : F) (q : N) : F := if q =? p then v else g q.

Lemma data_get_flat s g p : p < di s * dj s * dk s -> data_get (of_flat s g) p = Done (g p).
Proof.
  intros H. destruct (flat_surj s p H) as (i & j & k & Hin & <-).
  unfold data_get. rewrite vget_nth with (d := fzero).
  - change (nth _ _ _) with (val (of_flat s g) i j k). unfold of_flat. rewrite val_of_fun by assumption. reflexivity.
  - unfold len, of_flat, of_fun; cbn [data]. rewrite map_length, length_cells. lia.
Qed.

Lemma data_set_flat s g p v : p < di s * dj s * dk s -> data_set (of_flat s g) p v = Done (of_flat s (updf g p v)).
Proof.
  intros H. destruct (flat_surj s p H) as (i & j & k & Hin & <-).
  unfold of_flat at 1. rewrite data_set_of_fun by assumption. f_equal. apply of_fun_ext.
  intros i' j' k' Hin'. unfold upd, updf.
  destruct (N.eqb_spec (flat s i' j' k') (flat s i j k)) as [E|E].
  - apply flat_inj in E; try assumption. destruct E as (-> & -> & ->). rewrite !N.eqb_refl. reflexivity.
  - destruct (N.eqb_spec i' i), (N.eqb_spec j' j), (N.eqb_spec k' k); simpl; try reflexivity.
    subst; contradiction.
Qed.

(** The destination after the pairs (source position, destination position) in [pl]. *)
Definition scatter (f g : N -> F) (pl : list (N * N)) (p : N) : F :=
  fold_left fadd (map (fun x => f (fst x)) (filter (fun x => snd x =? p) pl)) (g p).

Fixpoint valid_prefix (n : N) (pl : list (N * N)) : list (N * N) :=
  match pl with
  | [] => []
  | x :: t => if n <=? snd x then [] else x :: valid_prefix n t
  end.

Definition all_valid (n : N) (pl : list (N * N)) : bool := forallb (fun x => snd x <? n) pl.

Lemma scatter_loop s1 f s2 g n2 pl :
  n2 = di s2 * dj s2 * dk s2 ->
  (forall q p, In (q, p) pl -> q < di s1 * dj s1 * dk s1) ->
  tryM pl
    (fun '(t1_index, t2_index) t2 =>
       if n2 <=? t2_index then Done (t2, Err "Tensor 2 index out of bounds"%string)
       else
         a <- data_get t2 t2_index ;;
         b <- data_get (of_flat s1 f) t1_index ;;
         t2' <- data_set t2 t2_index (fadd a b) ;;
         Done (t2', Ok tt))
    (of_flat s2 g)
  = Done (of_flat s2 (scatter f g (valid_prefix n2 pl)),
          if all_valid n2 pl then Ok tt else Err "Tensor 2 index out of bounds"%string).
Proof.
  intros -> . revert g; induction pl as [|[q p] pl IH]; intros g H; simpl; [reflexivity|].
  destruct (N.leb_spec (di s2 * dj s2 * dk s2) p) as [L|L].
  - replace (p <? di s2 * dj s2 * dk s2) with false by lia. reflexivity.
  - replace (p <? di s2 * dj s2 * dk s2) with true by lia.
    rewrite data_get_flat by assumption. cbn [bind].
    rewrite data_get_flat by (eapply H; left; reflexivity). cbn [bind].
    rewrite data_set_flat by assumption. cbn [bind].
    rewrite IH by (intros; eapply H; right; eassumption). f_equal. f_equal.
    apply of_flat_ext. intros p' Hp'. unfold scatter, updf; cbn [filter snd].
    rewrite (N.eqb_sym p p'). destruct (N.eqb_spec p' p); [subst|]; reflexivity.
Qed.

Lemma scatter_of_flat bm s1 f s2 g l :
  allocatable s1 -> allocatable s2 -> len l <= di s1 * dj s1 * dk s1 ->
  add_from_index_list bm (of_flat s1 f) (of_flat s2 g) l
  = Done (of_flat s2 (scatter f g (valid_prefix (di s2 * dj s2 * dk s2) (combine (upto (len l)) l))),
          if all_valid (di s2 * dj s2 * dk s2) (combine (upto (len l)) l) then Ok tt
          else Err "Tensor 2 index out of bounds"%string).
Proof.
  intros Ha1 Ha2 H. unfold add_from_index_list, get_shape. cbn [tshape of_flat of_fun].
  fold (of_fun s1 (fun i j k => f (flat s1 i j k))) (of_fun s2 (fun i j k => g (flat s2 i j k))).
  fold (of_flat s1 f) (of_flat s2 g).
  rewrite !total_size_done by assumption. cbn [bind].
  replace (di s1 * dj s1 * dk s1 <? len l) with false by lia. rewrite Nrange_upto.
  apply scatter_loop; [reflexivity|]. intros q p Hin. apply in_combine_l in Hin. apply in_upto in Hin. lia.
Qed.

(** ** Softmax *)
Lemma softmax_of_fun s f g :
  softmax (of_fun s f) (of_fun s g)
  = Done (of_fun s (fun i j k => fdiv (fexp (f i j k)) (sum (map (fun '(i, j, k) => fexp (f i j k)) (cells s))))).
Proof.
  unfold softmax, get_shape. cbn [tshape of_fun]. rewrite shape_eqb_refl.
  fold (of_fun s f) (of_fun s g).
  replace (len (data (of_fun s f))) with (di s * dj s * dk s)
    by (unfold len, of_fun; cbn [data]; rewrite map_length, length_cells; lia).
  unfold for_. rewrite Nrange_upto, upto_cells, forM_map.
  assert (G : forall l g acc, (forall i j k, In (i, j, k) l -> in_shape s i j k) ->
    forM l (fun x '(out, sum) =>
        x0 <- data_get (of_fun s f) (let '(i, j, k) := x in flat s i j k) ;;
        let e := fexp x0 in
        out' <- data_set out (let '(i, j, k) := x in flat s i j k) e ;;
        Done (out', fadd sum e)) (of_fun s g, acc)
    = Done (of_fun s (fun i j k => if memb l i j k then fexp (f i j k) else g i j k),
            fold_left fadd (map (fun '(i, j, k) => fexp (f i j k)) l) acc)).
  { induction l as [|[[i j] k] l IH]; intros g0 acc Hl; simpl; [reflexivity|].
    assert (Hin : in_shape s i j k) by (apply Hl; left; reflexivity).
    change (data_get (of_fun s f) (flat s i j k)) with (vget (data (of_fun s f)) (flat s i j k)).
    rewrite vget_nth with (d := fzero)
      by (unfold len, of_fun; cbn [data]; rewrite map_length, length_cells; pose proof (flat_lt _ _ _ _ Hin); lia).
    cbn [bind]. change (nth (N.to_nat (flat s i j k)) (data (of_fun s f)) fzero) with (val (of_fun s f) i j k).
    rewrite val_of_fun by assumption.
    rewrite data_set_of_fun by assumption. cbn [bind].
    rewrite IH by (intros; apply Hl; right; assumption). f_equal. f_equal.
    apply of_fun_ext. intros i' j' k' _. unfold upd.
    destruct (memb l i' j' k'); [rewrite orb_true_r; reflexivity|]. rewrite orb_false_r.
    destruct (N.eqb_spec i' i), (N.eqb_spec j' j), (N.eqb_spec k' k); simpl; subst; reflexivity. }
  rewrite G by (intros i j k; apply in_cells). cbn [bind]. fold (sum (map (fun '(i, j, k) => fexp (f i j k)) (cells s))).
  f_equal. unfold with_data. unfold of_fun at 3. unfold of_fun at 1 2; cbn [strides tshape].
  f_equal. unfold of_fun; cbn [data]. rewrite map_map. f_equal. apply map_ext_in. intros [[i j] k] Hin.
  destruct (memb_spec (cells s) i j k); [reflexivity|contradiction].
Qed.

(** ** Windows *)

Lemma tiles_bound m e stride n i x : tiles m e stride n -> i < n -> x < e -> i * stride + x < m.
Proof.
  intros (Hs & He & Hm & ->) Hi Hx.
  assert (E : stride * ((m - e) / stride) <= m - e) by (apply N.mul_div_le; assumption). nia.
Qed.

Lemma tiles_start m e stride n i : tiles m e stride n -> i < n -> i * stride <= m - e.
Proof.
  intros (Hs & He & Hm & ->) Hi.
  assert (E : stride * ((m - e) / stride) <= m - e) by (apply N.mul_div_le; assumption). nia.
Qed.

Lemma pool_index_done bm stride i j k ii jj m1 m2 :
  i * stride + ii < m1 -> j * stride + jj < m2 -> m1 < W32 -> m2 < W32 ->
  pool_index bm stride i j k ii jj = Done (mkIndex (i * stride + ii) (j * stride + jj) k).
Proof.
  intros. unfold pool_index. rewrite u32_mul_done by lia. cbn [bind]. rewrite u32_add_done by lia. cbn [bind].
  rewrite u32_mul_done by lia. cbn [bind]. rewrite u32_add_done by lia. reflexivity.
Qed.

(** The values of the window at (i, j) of channel k, in the order the loops visit them. *)
Definition window (mi mj stride : N) (f : N -> N -> N -> F) (i j k : N) : list F :=
  flat_map (fun jj => map (fun ii => f (i * stride + ii) (j * stride + jj) k) (upto mi)) (upto mj).

Definition pick_max (m x : F) : F := if fgtb x m then x else m.

Definition pool_fn (mi mj stride : N) (f : N -> N -> N -> F) (i j k : N) : F :=
  fold_left pick_max (window mi mj stride f i j k) fninf.

Lemma max_pool_inner bm s f mask stride i j k r :
  allocatable s -> pool_ok s mask stride r -> in_shape r i j k ->
  for_ 0 (dj mask) (fun jj =>
    for_ 0 (di mask) (fun ii running_max =>
      x <- pool_index bm stride i j k ii jj ;;
      current_item <- get_item bm (of_fun s f) x ;;
      Done (if fgtb current_item running_max then current_item else running_max))) fninf
  = Done (pool_fn (di mask) (dj mask) stride f i j k).
Proof.
  intros Ha (Hk & Ti & Tj) (Hi & Hj & Hkk). unfold for_, pool_fn, window. rewrite Nrange_upto.
  apply forM_acc_flat with (op := pick_max). intros jj acc Hjj. apply in_upto in Hjj.
  rewrite Nrange_upto.
  apply forM_acc with (op := pick_max). intros ii acc' Hii. apply in_upto in Hii.
  pose proof (tiles_bound _ _ _ _ _ _ Ti Hi Hii). pose proof (tiles_bound _ _ _ _ _ _ Tj Hj Hjj).
  destruct Ha as (A1 & A2 & A3 & A4 & A5).
  rewrite pool_index_done with (m1 := di s) (m2 := dj s) by assumption. cbn [bind].
  rewrite get_item_of_fun; [reflexivity|repeat split; assumption|]. repeat split; lia.
Qed.

Lemma max_pool_of_fun bm s f mask stride r g :
  allocatable s -> allocatable r -> check_max_pooling_dimensions bm s mask stride r = Done true ->
  pool_ok s mask stride r ->
  max_pool bm (of_fun s f) mask stride (of_fun r g) = Done (of_fun r (pool_fn (di mask) (dj mask) stride f)).
Proof.
  intros Ha Hr C P. unfold max_pool, get_shape. cbn [tshape of_fun]. rewrite C. cbn [bind].
  fold (of_fun s f) (of_fun r g).
  apply for_kji_write with (v := pool_fn (di mask) (dj mask) stride f).
  intros i j k f' Hin. rewrite max_pool_inner with (r := r) by assumption. cbn [bind].
  apply set_item_of_fun; assumption.
Qed.

Lemma check_pool_false bm s mask stride r (t o : T) :
  tshape t = s -> tshape o = r ->
  check_max_pooling_dimensions bm s mask stride r = Done false -> max_pool bm t mask stride o = Done o.
Proof. intros <- <- C. unfold max_pool, get_shape. rewrite C. reflexivity. Qed.

Lemma check_pool_spec bm s mask stride r :
  stride <> 0 -> di mask <= di s -> dj mask <= dj s -> (di s - di mask) / stride + 1 < W32 ->
  (dj s - dj mask) / stride + 1 < W32 ->
  exists b, check_max_pooling_dimensions bm s mask stride r = Done b /\ (b = true <-> pool_ok s mask stride r).
Proof.
  intros Hs Hi Hj Bi Bj. unfold check_max_pooling_dimensions, pool_ok, tiles.
  destruct (N.eqb_spec (dk r) (dk s)) as [E|E]; cbn [negb].
  2:{ eexists; split; [reflexivity|]. split; [discriminate|]. intros (? & _); contradiction. }
  rewrite !(u32_sub_done bm (di s)) by assumption. cbn [bind]. rewrite u32_rem_done by assumption. cbn [bind].
  destruct (N.eqb_spec ((di s - di mask) mod stride) 0) as [E0|E0]; cbn [negb].
  2:{ eexists; split; [reflexivity|]. split; [discriminate|]. intros (_ & (_ & _ & ? & _) & _); contradiction. }
  rewrite !(u32_sub_done bm (dj s)) by assumption. cbn [bind]. rewrite u32_rem_done by assumption. cbn [bind].
  destruct (N.eqb_spec ((dj s - dj mask) mod stride) 0) as [E1|E1]; cbn [negb].
  2:{ eexists; split; [reflexivity|]. split; [discriminate|]. intros (_ & _ & (_ & _ & ? & _)); contradiction. }
  rewrite !u32_div_done by assumption. cbn [bind]. rewrite !u32_add_done by assumption. cbn [bind].
  destruct (N.eqb_spec (di r) ((di s - di mask) / stride + 1)) as [E2|E2]; cbn [negb].
  2:{ eexists; split; [reflexivity|]. split; [discriminate|]. intros (_ & (_ & _ & _ & ?) & _); contradiction. }
  destruct (N.eqb_spec (dj r) ((dj s - dj mask) / stride + 1)) as [E3|E3]; cbn [negb].
  2:{ eexists; split; [reflexivity|]. split; [discriminate|]. intros (_ & _ & (_ & _ & _ & ?)); contradiction. }
  eexists; split; [reflexivity|]. split; auto. intros _. repeat split; assumption.
Qed.

(** ** max_pool_track_origin *)

(** Running (maximum, position) over a list of (value, position). *)
Definition pick_track (m x : F * N) : F * N := if fgtb (fst x) (fst m) then x else m.

Definition window_pos (s : shape) (mi mj stride : N) (f : N -> N -> N -> F) (i j k : N) : list (F * N) :=
  flat_map (fun jj => map (fun ii => (f (i * stride + ii) (j * stride + jj) k,
                                      flat s (i * stride + ii) (j * stride + jj) k)) (upto mi)) (upto mj).

Definition track_fn (s : shape) (mi mj stride : N) (f : N -> N -> N -> F) (i j k : N) : F * N :=
  fold_left pick_track (window_pos s mi mj stride f i j k) (fninf, 0).

Lemma fold_pick_track_fst l m : fst (fold_left pick_track l m) = fold_left pick_max (map fst l) (fst m).
Proof.
  revert m; induction l as [|x l IH]; intros m; simpl; [reflexivity|]. rewrite IH. f_equal.
  unfold pick_track, pick_max. destruct (fgtb (fst x) (fst m)); reflexivity.
Qed.

Lemma flat_map_map_fst {A B X Y} (h : X -> Y -> A) (h' : X -> Y -> B) (la : list X) (lb : list Y) :
  map fst (flat_map (fun x => map (fun y => (h x y, h' x y)) lb) la) = flat_map (fun x => map (h x) lb) la.
Proof.
  induction la as [|x la IH]; simpl; [reflexivity|]. rewrite map_app, IH, map_map. reflexivity.
Qed.

Lemma track_fn_fst s mi mj stride f i j k : fst (track_fn s mi mj stride f i j k) = pool_fn mi mj stride f i j k.
Proof.
  unfold track_fn, pool_fn. rewrite fold_pick_track_fst. f_equal. unfold window_pos, window.
  apply (flat_map_map_fst (fun jj ii => f (i * stride + ii) (j * stride + jj) k)).
Qed.

Lemma track_inner bm s f mask stride i j k r :
  allocatable s -> pool_ok s mask stride r -> in_shape r i j k ->
  for_ 0 (dj mask) (fun jj =>
    for_ 0 (di mask) (fun ii '(running_max, input_index) =>
      x <- pool_index bm stride i j k ii jj ;;
      current_item <- get_item bm (of_fun s f) x ;;
      if fgtb current_item running_max then
        id <- get_data_index bm (of_fun s f) x ;;
        Done (current_item, id)
      else Done (running_max, input_index))) (fninf, 0)
  = Done (track_fn s (di mask) (dj mask) stride f i j k).
Proof.
  intros Ha (Hk & Ti & Tj) (Hi & Hj & Hkk). unfold for_, track_fn, window_pos. rewrite Nrange_upto.
  apply forM_acc_flat with (op := pick_track). intros jj acc Hjj. apply in_upto in Hjj.
  rewrite Nrange_upto.
  apply forM_acc with (op := pick_track). intros ii [m p] Hii. apply in_upto in Hii.
  pose proof (tiles_bound _ _ _ _ _ _ Ti Hi Hii). pose proof (tiles_bound _ _ _ _ _ _ Tj Hj Hjj).
  destruct Ha as (A1 & A2 & A3 & A4 & A5).
  rewrite pool_index_done with (m1 := di s) (m2 := dj s) by assumption. cbn [bind].
  rewrite get_item_of_fun; [|repeat split; assumption|repeat split; lia]. cbn [bind].
  unfold pick_track; cbn [fst].
  destruct (fgtb _ m); [|reflexivity].
  rewrite data_index_of_fun; [reflexivity|repeat split; assumption|repeat split; lia].
Qed.

Lemma list_set_map_flat {B} s (l : list B) i j k (v : B) :
  in_shape s i j k -> length l = length (cells s) ->
  vset l (flat s i j k) v = Done (list_set l (N.to_nat (flat s i j k)) v).
Proof.
  intros Hin Hl. apply vset_done. unfold len. rewrite Hl, length_cells. pose proof (flat_lt _ _ _ _ Hin). lia.
Qed.

Lemma track_of_fun bm s f mask stride r g o :
  allocatable s -> allocatable r -> check_max_pooling_dimensions bm s mask stride r = Done true ->
  pool_ok s mask stride r -> len o = di r * dj r * dk r ->
  max_pool_track_origin bm (of_fun s f) mask stride (of_fun r g) o
  = Done (of_fun r (pool_fn (di mask) (dj mask) stride f),
          map (fun '(i, j, k) => snd (track_fn s (di mask) (dj mask) stride f i j k)) (cells r), Ok tt).
Proof.
  intros Ha Hr C P Ho. unfold max_pool_track_origin, get_shape. cbn [tshape of_fun]. rewrite C. cbn [bind negb].
  rewrite total_size_done by assumption. cbn [bind]. rewrite Ho, N.eqb_refl. cbn [negb].
  fold (of_fun s f) (of_fun r g). rewrite for_kji_cells.
  assert (G : forall l (done : list (N * N * N)) g o, (forall i j k, In (i, j, k) l -> in_shape r i j k) ->
    length o = length (cells r) ->
    exists o',
    forM l (fun '(i, j, k) '(r0, origin) =>
          output_index <- get_data_index bm r0 (mkIndex i j k) ;;
          '(running_max, input_index) <-
            for_ 0 (dj mask) (fun jj =>
              for_ 0 (di mask) (fun ii '(running_max, input_index) =>
                x <- pool_index bm stride i j k ii jj ;;
                current_item <- get_item bm (of_fun s f) x ;;
                if fgtb current_item running_max then
                  id <- get_data_index bm (of_fun s f) x ;;
                  Done (current_item, id)
                else Done (running_max, input_index)))
              (fninf, 0) ;;
          r' <- set_item bm r0 (mkIndex i j k) running_max ;;
          o' <- vset origin output_index input_index ;;
          Done (r', o')) (of_fun r g, o)
    = Done (of_fun r (fun i j k => if memb l i j k then pool_fn (di mask) (dj mask) stride f i j k else g i j k), o')
    /\ length o' = length (cells r)
    /\ forall i j k, in_shape r i j k ->
        nth (N.to_nat (flat r i j k)) o' 0
        = if memb l i j k then snd (track_fn s (di mask) (dj mask) stride f i j k)
          else nth (N.to_nat (flat r i j k)) o 0).
  { induction l as [|[[i j] k] l IH]; intros done g0 o0 Hl Ho0; simpl.
    - exists o0. repeat split; auto.
    - assert (Hin : in_shape r i j k) by (apply Hl; left; reflexivity).
      rewrite data_index_of_fun by assumption. cbn [bind].
      rewrite track_inner with (r := r) by assumption. cbn [bind].
      destruct (track_fn s (di mask) (dj mask) stride f i j k) as [m p] eqn:Et.
      assert (Em : m = pool_fn (di mask) (dj mask) stride f i j k) by (rewrite <- (track_fn_fst s), Et; reflexivity).
      rewrite set_item_of_fun by assumption. cbn [bind].
      rewrite list_set_map_flat by assumption. cbn [bind].
      destruct (IH (done ++ [(i, j, k)])%list (upd g0 (i, j, k) m) (list_set o0 (N.to_nat (flat r i j k)) p)) as (o' & E & L & Hn).
      { intros; apply Hl; right; assumption. }
      { rewrite length_list_set. exact Ho0. }
      exists o'. split; [|split; [exact L|]].
      + rewrite E. f_equal. f_equal. apply of_fun_ext. intros i' j' k' _. unfold upd.
        destruct (memb l i' j' k'); [rewrite orb_true_r; reflexivity|]. rewrite orb_false_r.
        destruct (N.eqb_spec i' i), (N.eqb_spec j' j), (N.eqb_spec k' k); simpl; subst; reflexivity.
      + intros i' j' k' Hin'. rewrite Hn by assumption.
        destruct (memb l i' j' k'); [rewrite orb_true_r; reflexivity|]. rewrite orb_false_r.
        rewrite nth_list_set by (rewrite Ho0, length_cells; pose proof (flat_lt _ _ _ _ Hin); lia).
        destruct (Nat.eqb_spec (N.to_nat (flat r i' j' k')) (N.to_nat (flat r i j k))) as [E'|E'].
        * apply N2Nat.inj in E'. apply flat_inj in E'; try assumption. destruct E' as (-> & -> & ->).
          rewrite !N.eqb_refl. simpl. rewrite Et. reflexivity.
        * destruct (N.eqb_spec i' i), (N.eqb_spec j' j), (N.eqb_spec k' k); simpl; try reflexivity.
          subst; contradiction. }
  destruct (G (cells r) [] g o) as (o' & E & L & Hn).
  { intros i j k; apply in_cells. }
  { rewrite length_cells. unfold len in Ho. lia. }
  rewrite E. cbn [bind]. f_equal. f_equal. f_equal.
  - apply of_fun_ext. intros i j k Hin. destruct (memb_spec (cells r) i j k) as [|n]; [reflexivity|].
    exfalso; apply n; apply in_cells; exact Hin.
  - apply nth_ext with (d := 0) (d' := 0); [rewrite map_length; exact L|].
    intros n Hn'. rewrite L, length_cells in Hn'.
    destruct (flat_surj r (N.of_nat n)) as (i & j & k & Hin & Hf); [lia|].
    replace n with (N.to_nat (flat r i j k)) by lia. rewrite Hn by assumption.
    destruct (memb_spec (cells r) i j k) as [|n']; [|exfalso; apply n'; apply in_cells; exact Hin].
    symmetry. apply nth_error_nth.
    apply (map_nth_error (fun '(i, j, k) => snd (track_fn s (di mask) (dj mask) stride f i j k)) _ _ (d := (i, j, k))).
    rewrite nth_error_nth' with (d := (0, 0, 0)).
    + rewrite nth_cells by assumption. reflexivity.
    + rewrite length_cells. lia.
Qed.

(** ** Convolution *)
Lemma check_conv_spec bm im kernel stride r ch :
  stride <> 0 -> di kernel <= di im -> dj kernel <= dj im -> (di im - di kernel) / stride + 1 < W32 ->
  (dj im - dj kernel) / stride + 1 < W32 ->
  exists c, check_convolution_dimensions bm im kernel stride r ch = Done c
            /\ (c = Ok tt <-> conv_ok im kernel stride r ch).
Proof.
  intros Hs Hi Hj Bi Bj. unfold check_convolution_dimensions, conv_ok, tiles.
  destruct (N.eqb_spec (dk im) (dk kernel)) as [E|E]; cbn [negb].
  2:{ eexists; split; [reflexivity|]. split; [discriminate|]. intros (? & _); contradiction. }
  rewrite !(u32_sub_done bm (di im)) by assumption. cbn [bind]. rewrite u32_rem_done by assumption. cbn [bind].
  destruct (N.eqb_spec ((di im - di kernel) mod stride) 0) as [E0|E0]; cbn [negb].
  2:{ eexists; split; [reflexivity|]. split; [discriminate|]. intros (_ & (_ & _ & ? & _) & _); contradiction. }
  rewrite !(u32_sub_done bm (dj im)) by assumption. cbn [bind]. rewrite u32_rem_done by assumption. cbn [bind].
  destruct (N.eqb_spec ((dj im - dj kernel) mod stride) 0) as [E1|E1]; cbn [negb].
  2:{ eexists; split; [reflexivity|]. split; [discriminate|]. intros (_ & _ & (_ & _ & ? & _) & _); contradiction. }
  rewrite !u32_div_done by assumption. cbn [bind]. rewrite !u32_add_done by assumption. cbn [bind].
  destruct (N.eqb_spec (di r) ((di im - di kernel) / stride + 1)) as [E2|E2]; cbn [negb].
  2:{ eexists; split; [reflexivity|]. split; [discriminate|]. intros (_ & (_ & _ & _ & ?) & _); contradiction. }
  destruct (N.eqb_spec (dj r) ((dj im - dj kernel) / stride + 1)) as [E3|E3]; cbn [negb].
  2:{ eexists; split; [reflexivity|]. split; [discriminate|]. intros (_ & _ & (_ & _ & _ & ?) & _); contradiction. }
  destruct (N.leb_spec (dk r) ch) as [E4|E4].
  { eexists; split; [reflexivity|]. split; [discriminate|]. intros (_ & _ & _ & ?); lia. }
  eexists; split; [reflexivity|]. split; auto. intros _. repeat split; assumption.
Qed.

(** The products of one window, in loop order. *)
Definition conv_terms (ks : shape) (stride : N) (f h : N -> N -> N -> F) (i j : N) : list F :=
  map (fun '(ki, kj, kk) => fmul (f (i * stride + ki) (j * stride + kj) kk) (h ki kj kk)) (cells ks).

Lemma conv_window_of_fun bm s f ks h stride i j r ch :
  allocatable s -> allocatable ks -> conv_ok s ks stride r ch -> i < di r -> j < dj r ->
  conv_window bm (of_fun s f) (of_fun ks h) stride i j = Done (sum (conv_terms ks stride f h i j)).
Proof.
  intros Ha Hk (Ek & Ti & Tj & _) Hi Hj. unfold conv_window, get_shape. cbn [tshape of_fun].
  pose proof (tiles_start _ _ _ _ _ Ti Hi). pose proof (tiles_start _ _ _ _ _ Tj Hj).
  pose proof Ha as (A1 & A2 & A3 & A4 & A5).
  rewrite !u32_mul_done by lia. cbn [bind]. rewrite for_kji_cells. unfold sum, conv_terms.
  apply forM_acc with (op := fadd) (g := fun '(ki, kj, kk) => fmul (f (i * stride + ki) (j * stride + kj) kk) (h ki kj kk)).
  intros [[ki kj] kk] acc Hin. apply in_cells in Hin. fold (of_fun s f) (of_fun ks h).
  rewrite data_index_of_fun by assumption. cbn [bind]. destruct Hin as (Hki & Hkj & Hkk).
  pose proof (tiles_bound _ _ _ _ _ _ Ti Hi Hki). pose proof (tiles_bound _ _ _ _ _ _ Tj Hj Hkj).
  rewrite !u32_add_done by lia. cbn [bind].
  assert (Hin' : in_shape s (i * stride + ki) (j * stride + kj) kk) by (repeat split; lia).
  rewrite data_index_of_fun by assumption. cbn [bind].
  rewrite data_get_of_fun by assumption. cbn [bind].
  rewrite data_get_of_fun by (try assumption; repeat split; assumption). reflexivity.
Qed.

(** Writing one channel. *)
Lemma channel_write r ch (body : N -> N -> T -> res T) (v : N -> N -> F) g :
  ch < dk r ->
  (forall i j f, i < di r -> j < dj r -> body i j (of_fun r f) = Done (of_fun r (upd f (i, j, ch) (v i j)))) ->
  for_ 0 (dj r) (fun j => for_ 0 (di r) (fun i => body i j)) (of_fun r g)
  = Done (of_fun r (fun i j k => if k =? ch then v i j else g i j k)).
Proof.
  intros Hch H. unfold for_. rewrite Nrange_upto.
  transitivity (forM (flat_map (fun j => map (fun i => (i, j, ch)) (upto (di r))) (upto (dj r)))
                     (fun '(i, j, _) => body i j) (of_fun r g)).
  { rewrite forM_flat_map. apply forM_ext. intros j s _. rewrite Nrange_upto, forM_map. reflexivity. }
  assert (M : forall i j k, In (i, j, k) (flat_map (fun j => map (fun i => (i, j, ch)) (upto (di r))) (upto (dj r)))
                            <-> i < di r /\ j < dj r /\ k = ch).
  { intros i j k. rewrite in_flat_map. split.
    - intros (j' & Hj & Hm). apply in_map_iff in Hm. destruct Hm as (i' & [= -> -> ->] & Hi).
      apply in_upto in Hi, Hj. auto.
    - intros (Hi & Hj & ->). exists j. split; [apply in_upto; exact Hj|]. apply in_map_iff. exists i.
      split; [reflexivity|]. apply in_upto; exact Hi. }
  rewrite forM_write with (v := fun i j _ => v i j).
  - f_equal. apply of_fun_ext. intros i j k (Hi & Hj & Hk).
    destruct (memb_spec (flat_map (fun j => map (fun i => (i, j, ch)) (upto (di r))) (upto (dj r))) i j k) as [Y|Y].
    + apply M in Y. destruct Y as (_ & _ & ->). rewrite N.eqb_refl. reflexivity.
    + destruct (N.eqb_spec k ch); [|reflexivity]. exfalso. apply Y. apply M. auto.
  - intros i j k f' Hin. apply M in Hin. destruct Hin as (Hi & Hj & ->). apply H; assumption.
Qed.

Definition one_cell (s : shape) : Prop := di s <= 1 /\ dj s <= 1 /\ dk s <= 1.

(** The bias value read: element (0,0,0), or 0.0 for an empty bias tensor. *)
Definition bias_value (bs : shape) (fb : N -> N -> N -> F) : F :=
  if in_shapeb bs 0 0 0 then fb 0 0 0 else fzero.

Lemma get_bias bm bs fb : allocatable bs -> get_item bm (of_fun bs fb) (mkIndex 0 0 0) = Done (bias_value bs fb).
Proof.
  intros H. rewrite get_item_wf by (apply wf_of_fun; exact H). cbn [tshape of_fun]. unfold bias_value.
  destruct (in_shapeb_spec bs 0 0 0) as [Hin|]; [|reflexivity]. rewrite val_of_fun by exact Hin. reflexivity.
Qed.

Lemma one_cell_guard bs : (1 <? di bs) || (1 <? dj bs) || (1 <? dk bs) = false <-> one_cell bs.
Proof. unfold one_cell. lia. Qed.

(** ** Kernel gradient *)
Definition kgrad_terms (rs : shape) (stride : N) (f g : N -> N -> N -> F) (l m n : N) : list F :=
  map (fun '(i, j, k) => fmul (f (l + i * stride) (m + j * stride) n) (g i j k)) (cells rs).

Lemma backprop_kernel_of_fun bm rs g s f stride ch ks h :
  allocatable rs -> allocatable s -> allocatable ks ->
  check_convolution_dimensions bm s ks stride rs ch = Done (Ok tt) -> conv_ok s ks stride rs ch ->
  convolution_backprop_kernel bm (of_fun rs g) (of_fun s f) stride ch (of_fun ks h)
  = Done (of_fun ks (fun l m n => sum (kgrad_terms rs stride f g l m n)), Ok tt).
Proof.
  intros Hr Ha Hk C P. unfold convolution_backprop_kernel, get_shape. cbn [tshape of_fun]. rewrite C. cbn [bind].
  fold (of_fun rs g) (of_fun s f) (of_fun ks h).
  destruct P as (Ek & Ti & Tj & _). pose proof Ha as (A1 & A2 & A3 & A4 & A5).
  rewrite for_kji_write with (v := fun l m n => sum (kgrad_terms rs stride f g l m n)); [reflexivity|].
  intros l m n f' (Hl & Hm & Hn). rewrite for_kji_cells.
  rewrite forM_acc with (op := fadd) (g := fun '(i, j, k) => fmul (f (l + i * stride) (m + j * stride) n) (g i j k)).
  - cbn [bind]. assert (Hin : in_shape ks l m n) by (repeat split; assumption).
    rewrite data_index_of_fun by assumption. cbn [bind]. apply data_set_of_fun. assumption.
  - intros [[i j] k] acc Hin. apply in_cells in Hin.
    rewrite data_index_of_fun by assumption. cbn [bind]. pose proof Hin as (Hi & Hj & Hkk).
    pose proof (tiles_bound _ _ _ _ _ _ Ti Hi Hl). pose proof (tiles_bound _ _ _ _ _ _ Tj Hj Hm).
    pose proof (tiles_start _ _ _ _ _ Ti Hi). pose proof (tiles_start _ _ _ _ _ Tj Hj).
    rewrite u32_mul_done by lia. cbn [bind]. rewrite u32_add_done by lia. cbn [bind].
    rewrite u32_mul_done by lia. cbn [bind]. rewrite u32_add_done by lia. cbn [bind].
    assert (Hin' : in_shape s (l + i * stride) (m + j * stride) n) by (repeat split; lia).
    rewrite data_index_of_fun by assumption. cbn [bind].
    rewrite data_get_of_fun by assumption. cbn [bind].
    rewrite data_get_of_fun by assumption. reflexivity.
Qed.

End Facts.
