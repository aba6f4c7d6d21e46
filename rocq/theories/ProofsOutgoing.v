(** * The outgoing gradient of a convolution: which windows its loops visit *)
From Coq Require Import ZifyBool ZifyNat ZifyN.
From Verif Require Import Base Arith Helper Tensor Convolution Spec SpecOps Loops TensorFacts OpsFacts Layout ProofsTensor
  ProofsConv ProofsBackprop ProofsPool.
Ltac Zify.zify_post_hook ::= Z.div_mod_to_equations.

Lemma backprop_range_visited bm a kd stride n :
  a < 2147483647 -> kd < 2147483648 -> stride <> 0 -> stride < 2147483648 -> kd <= n ->
  exists lo hi, backprop_range bm a kd stride = Done (lo, hi) /\ Nrange lo hi = visited n kd stride a.
Proof.
  intros Ha Hk Hs Hs' Hn. unfold backprop_range, i32_sub, i32_add.
  assert (E1 : forall x, x < 2147483648 -> u32_as_i32 x = Z.of_N x)
    by (intros x Hx; unfold u32_as_i32; destruct (N.ltb_spec x 2147483648); lia).
  rewrite !E1 by lia. rewrite i32_fit_done by (unfold I32_MIN, I32_MAX; lia). cbn [bind].
  set (q := Z.quot (Z.of_N a - Z.of_N kd) (Z.of_N stride)).
  assert (D : i32_div (Z.of_N a - Z.of_N kd) (Z.of_N stride) = Done q).
  { unfold i32_div, I32_MIN. destruct (Z.eqb_spec (Z.of_N stride) 0); [lia|].
    destruct (Z.eqb_spec (Z.of_N stride) (-1)); [lia|]. rewrite andb_false_r. reflexivity. }
  rewrite D. cbn [bind].
  assert (Q : if (kd <=? a) then q = Z.of_N ((a - kd) / stride) else q = (- Z.of_N ((kd - a) / stride))%Z).
  { unfold q. destruct (N.leb_spec kd a).
    - rewrite Z.quot_div_nonneg by lia. rewrite N2Z.inj_div. f_equal. lia.
    - replace (Z.of_N a - Z.of_N kd)%Z with (- (Z.of_N (kd - a)))%Z by lia. rewrite Z.quot_opp_l by lia.
      rewrite Z.quot_div_nonneg by lia. rewrite N2Z.inj_div. reflexivity. }
  assert (B : (- 2147483648 < q < 2147483648 - 1)%Z).
  { destruct (kd <=? a) eqn:L; rewrite Q.
    - destruct (N.eq_dec stride 1) as [->|]; [rewrite N.div_1_r; lia|].
      assert ((a - kd) / stride <= (a - kd) / 2) by (apply N.div_le_compat_l; lia). lia.
    - assert ((kd - a) / stride <= kd - a) by (apply N.div_le_upper_bound; nia). lia. }
  rewrite i32_fit_done by (unfold I32_MIN, I32_MAX; lia). cbn [bind].
  rewrite u32_div_done by assumption. cbn [bind].
  assert (a / stride <= a) by (apply N.div_le_upper_bound; nia).
  rewrite u32_add_done by (unfold W32; lia). cbn [bind].
  do 2 eexists. split; [reflexivity|].
  assert (E : i32_as_u32 (Z.max (q + 1) 0) = Z.to_N (Z.max (q + 1) 0)).
  { unfold i32_as_u32. rewrite Z.mod_small by lia. reflexivity. }
  rewrite E. clear E D. rewrite Nrange_filter with (n := n) by lia. unfold visited, covering.
  assert (FF : forall (A : Type) (f g : A -> bool) l, filter f (filter g l) = filter (fun x => g x && f x) l).
  { clear. induction l as [|x l IH]; [reflexivity|]. simpl. destruct (g x); simpl; [destruct (f x)|]; rewrite IH; reflexivity. }
  rewrite FF. apply filter_ext_in'. intros i Hi. apply in_upto in Hi.
  assert (M1 : i <= a / stride <-> stride * i <= a).
  { split; intros.
    - eapply N.le_trans; [apply N.mul_le_mono_l; eassumption|apply N.mul_div_le; assumption].
    - apply N.div_le_lower_bound; assumption. }
  assert (P1 : (i <? N.min (a / stride + 1) kd) = (stride * i <=? a) && (i <? kd)).
  { apply eq_true_iff_eq. rewrite andb_true_iff, !N.ltb_lt, N.leb_le. lia. }
  rewrite P1. clear P1.
  assert (P2 : (stride * i <=? a) = true -> (i <? kd) = true ->
    (Z.to_N (Z.max (q + 1) 0) <=? i) = (a <? stride * i + kd) && negb ((i =? 0) && (kd <? a + stride))).
  { intros L1 L2. apply N.leb_le in L1. apply N.ltb_lt in L2. apply eq_true_iff_eq.
    rewrite andb_true_iff, negb_true_iff, andb_false_iff, N.leb_le, N.ltb_lt, N.eqb_neq, N.ltb_ge.
    destruct (N.leb_spec kd a) as [L|L].
    - rewrite Q. assert (M2 : (a - kd) / stride + 1 <= i <-> a < stride * i + kd).
      { assert (X : (a - kd) / stride < i <-> a - kd < stride * i).
        { split; intros.
          - pose proof (N.mul_succ_div_gt (a - kd) stride Hs).
            eapply N.lt_le_trans; [eassumption|]. apply N.mul_le_mono_l, N.le_succ_l. assumption.
          - apply N.div_lt_upper_bound; assumption. }
        lia. }
      clear Q B H M1 E1. revert M2. generalize ((a - kd) / stride). intros d M2.
      split; intros X.
      + assert (d + 1 <= i) by lia. split; [apply M2; assumption|]. left. lia.
      + destruct X as (X & _). apply M2 in X. lia.
    - rewrite Q. assert (M2 : 1 <= (kd - a) / stride <-> a + stride <= kd).
      { split; intros.
        - pose proof (N.mul_div_le (kd - a) stride Hs). assert (stride * 1 <= stride * ((kd - a) / stride)) by (apply N.mul_le_mono_l; assumption).
          rewrite N.mul_1_r in *. clear - H1 H2 H L. revert H1 H2. generalize (stride * ((kd - a) / stride)). intros. lia.
        - apply N.div_le_lower_bound; lia. }
      clear Q B H M1 E1. revert M2. generalize ((kd - a) / stride). intros d M2.
      destruct (N.eq_dec i 0) as [->|Ni].
      + rewrite N.mul_0_r in *. lia.
      + assert (1 <= i) by lia. split; intros; [split; [|left; exact Ni]; nia|]. lia. }
  destruct (stride * i <=? a) eqn:L1; destruct (i <? kd) eqn:L2; cbn [andb]; rewrite ?andb_false_r; try reflexivity.
  rewrite andb_true_r. apply P2; reflexivity.
Qed.

Section Outgoing.
Context {F : Type} {AR : Arith F}.
Notation T := (tensor F).

(** The kernel-by-kernel check: [Ok] exactly when every kernel tiles. *)
Lemma check_kernels bm (l : list (N * T)) s rs stride :
  u32_shape s -> (forall i K, In (i, K) l -> windows_fit s (tshape K) stride) ->
  exists c, tryM l (fun '(i, kernel) _ =>
           c <- check_convolution_dimensions bm s (tshape kernel) stride rs (as_u32 i) ;;
           Done (tt, c)) tt = Done (tt, c)
    /\ (c = Ok tt -> forall i K, In (i, K) l -> conv_ok s (tshape K) stride rs (as_u32 i)).
Proof.
  intros U. induction l as [|[i K] l IH]; intros H.
  { exists (Ok tt). split; [reflexivity|]. intros _ i K []. }
  destruct (H i K) as (Hs & (Fi & Fj) & Ei & Ej); [left; reflexivity|]. destruct U as (U1 & U2 & U3).
  destruct (check_conv_spec bm s (tshape K) stride rs (as_u32 i)) as (c & Hc & Hiff); try assumption.
  { destruct (N.lt_ge_cases ((di s - di (tshape K)) / stride + 1) W32); [assumption|]. exfalso. apply Ei. apply extent_overflow; assumption. }
  { destruct (N.lt_ge_cases ((dj s - dj (tshape K)) / stride + 1) W32); [assumption|]. exfalso. apply Ej. apply extent_overflow; assumption. }
  cbn [tryM]. rewrite Hc. cbn [bind]. destruct c as [[]|e].
  - destruct IH as (c & E & P); [intros; eapply H; right; eassumption|].
    exists c. split; [exact E|]. intros -> i' K' [X|X]; [injection X as <- <-; apply Hiff; reflexivity|apply P; auto].
  - exists (Err e). split; [reflexivity|]. discriminate.
Qed.

Lemma outgoing_value bm (kernels : list T) rs g s o ks h stride :
  allocatable rs -> allocatable s ->
  (forall n t, nth_error kernels (N.to_nat n) = Some t ->
     t = of_fun (ks n) (h n) /\ allocatable (ks n) /\ conv_ok s (ks n) stride rs (as_u32 n) /\ outgoing_fits rs (ks n) s stride) ->
  dk rs <= len kernels ->
  for_kji s (fun a b c outgoing =>
    v <- for_ 0 (dk rs) (fun k acc =>
      kernel <- vget kernels k ;;
      '(i_start, i_stop) <- backprop_range bm a (di (tshape kernel)) stride ;;
      '(j_start, j_stop) <- backprop_range bm b (dj (tshape kernel)) stride ;;
      for_ j_start j_stop (fun j =>
        for_ i_start i_stop (fun i acc =>
          gid <- get_data_index bm (of_fun rs g) (mkIndex i j k) ;;
          oi <- u32_mul bm stride i ;;
          xi <- u32_sub bm a oi ;;
          oj <- u32_mul bm stride j ;;
          xj <- u32_sub bm b oj ;;
          kid <- get_data_index bm kernel (mkIndex xi xj c) ;;
          kv <- data_get kernel kid ;;
          g0 <- data_get (of_fun rs g) gid ;;
          Done (fadd acc (fmul kv g0)))) acc) fzero ;;
    id <- get_data_index bm outgoing (mkIndex a b c) ;;
    data_set outgoing id v) (of_fun s o)
  = Done (of_fun s (fun a b c => sum (visited_products rs ks stride h g a b c))).
Proof.
  intros Ar As HK L. apply for_kji_write.
  intros a b c f' Hin. pose proof Hin as (Ha & Hb & Hc).
  match goal with |- context [bind (for_ 0 (dk rs) ?body fzero) _] =>
    assert (W : for_ 0 (dk rs) body fzero = Done (sum (visited_products rs ks stride h g a b c))) end.
  { unfold for_ at 1. rewrite Nrange_upto. unfold visited_products, sum.
    apply forM_acc_flat. intros k acc Hkk. apply in_upto in Hkk.
    assert (Ek : exists t, nth_error kernels (N.to_nat k) = Some t).
    { destruct (nth_error kernels (N.to_nat k)) eqn:E; [eauto|]. apply nth_error_None in E. unfold len in L. lia. }
    destruct Ek as (t & Ek). destruct (HK _ _ Ek) as (-> & Ak & (Edk & Ti & Tj & _) & (O1 & O2 & O3 & O4 & O5 & O6 & O7)).
    pose proof Ti as (Hs & _). unfold vget. replace (k <? len kernels) with true by lia. rewrite Ek. cbn [bind tshape of_fun]. fold (of_fun (ks k) (h k)).
    destruct (backprop_range_visited bm a (di (ks k)) stride (di rs)) as (lo & hi & E1 & E2); try assumption; [lia|].
    destruct (backprop_range_visited bm b (dj (ks k)) stride (dj rs)) as (lo' & hi' & E1' & E2'); try assumption; [lia|].
    rewrite E1, E1'. cbn [bind]. unfold for_. rewrite E2, E2'.
    apply forM_acc_flat. intros j acc' Hj. unfold visited, covering in Hj. apply filter_In in Hj. destruct Hj as (Hj & _).
    apply filter_In in Hj. destruct Hj as (Hj & Hjc). apply in_upto in Hj.
    apply forM_acc. intros i acc'' Hi. unfold visited, covering in Hi. apply filter_In in Hi. destruct Hi as (Hi & _).
    apply filter_In in Hi. destruct Hi as (Hi & Hic). apply in_upto in Hi.
    assert (I1 : in_shape rs i j k) by (repeat split; assumption).
    assert (I2 : in_shape (ks k) (a - stride * i) (b - stride * j) c) by (repeat split; lia).
    rewrite data_index_of_fun by assumption. cbn [bind].
    pose proof (u32_shape_alloc s As) as (U1 & U2 & U3).
    rewrite u32_mul_done by lia. cbn [bind]. rewrite u32_sub_done by lia. cbn [bind].
    rewrite u32_mul_done by lia. cbn [bind]. rewrite u32_sub_done by lia. cbn [bind].
    rewrite data_index_of_fun by assumption. cbn [bind].
    rewrite data_get_of_fun by assumption. cbn [bind].
    rewrite data_get_of_fun by assumption. reflexivity. }
  rewrite W. cbn [bind]. rewrite data_index_of_fun by assumption. cbn [bind]. apply data_set_of_fun. assumption.
Qed.

(** C16 at any stride, when the kernel extents do not exceed the gradient's. *)
Lemma outgoing_runs bm incoming outgoing (kernels : list T) s rs ks g h o stride :
  holds bm incoming rs g -> holds bm outgoing s o -> all_hold bm kernels ks h -> len kernels = dk rs ->
  (forall k, k < dk rs -> conv_ok s ks stride rs k) -> (0 < dk rs -> outgoing_fits rs ks s stride) ->
  exists og, convolution_backprop_outgoing_gradient bm incoming kernels stride outgoing = Done (og, Ok tt)
    /\ holds bm og s (fun a b c => sum (visited_products rs (fun _ => ks) stride h g a b c)).
Proof.
  intros Hg Ho Hk L P OF. holds_start.
  exists (of_fun s (fun a b c => sum (visited_products rs (fun _ => ks) stride h g a b c))).
  split; [|apply holds_of_fun; assumption].
  unfold convolution_backprop_outgoing_gradient, get_shape. cbn [tshape of_fun]. fold (of_fun rs g) (of_fun s o).
  pose proof (check_all_kernels bm kernels s ks h stride rs Hk L (u32_shape_alloc rs ltac:(assumption)) P) as C.
  unfold get_shape in C. rewrite C. cbn [bind].
  assert (Er : dk rs < W32) by (apply (u32_shape_alloc rs); assumption).
  assert (E : as_u32 (len kernels) = dk rs) by (unfold as_u32; rewrite L; apply N.mod_small; exact Er).
  rewrite E, N.eqb_refl. cbn [negb].
  rewrite outgoing_value with (ks := fun _ => ks) (h := h); try assumption; [reflexivity| |lia].
  intros n t En.
  assert (Hn : n < dk rs). { assert ((N.to_nat n < length kernels)%nat) by (apply nth_error_Some; congruence). unfold len in L. lia. }
  apply Hk in En. apply holds_iff in En. destruct En as (Ak & ->). split; [reflexivity|]. split; [exact Ak|]. split; [|apply OF; lia].
  replace (as_u32 n) with n by (unfold as_u32; symmetry; apply N.mod_small; lia). apply P. exact Hn.
Qed.

Lemma outgoing_visited bm incoming outgoing (kernels : list T) s rs ks g h o stride :
  holds bm incoming rs g -> holds bm outgoing s o -> all_hold bm kernels ks h -> len kernels = dk rs ->
  (forall k, k < dk rs -> conv_ok s ks stride rs k) -> outgoing_fits rs ks s stride ->
  exists og, convolution_backprop_outgoing_gradient bm incoming kernels stride outgoing = Done (og, Ok tt)
    /\ holds bm og s (fun a b c => sum (visited_products rs (fun _ => ks) stride h g a b c)).
Proof. intros Hg Ho Hk L P OF. eapply outgoing_runs; eauto. Qed.

Lemma outgoing_total bm (incoming outgoing : T) kernels stride :
  wf incoming -> wf outgoing ->
  (forall K, In K kernels -> wf K /\ windows_fit (tshape outgoing) (tshape K) stride
                             /\ outgoing_fits (tshape incoming) (tshape K) (tshape outgoing) stride) ->
  exists og r, convolution_backprop_outgoing_gradient bm incoming kernels stride outgoing = Done (og, r).
Proof.
  intros Wi Wo HK. unfold convolution_backprop_outgoing_gradient, get_shape.
  destruct (check_kernels bm (combine (Nrange 0 (len kernels)) kernels) (tshape outgoing) (tshape incoming) stride)
    as (c & E & P).
  { apply u32_shape_alloc, wf_alloc, Wo. }
  { intros i K Hin. apply HK. eapply in_combine_r, Hin. }
  rewrite E. cbn [bind]. destruct c as [[]|e]; [|eauto].
  destruct (N.eqb_spec (as_u32 (len kernels)) (dk (tshape incoming))) as [Ed|]; cbn [negb]; [|eauto].
  set (d0 := of_fun (mkShape 0 0 0) (fun _ _ _ => fzero) : T).
  pose proof (outgoing_value bm kernels (tshape incoming) (val incoming) (tshape outgoing) (val outgoing)
    (fun n => tshape (nth (N.to_nat n) kernels d0)) (fun n => val (nth (N.to_nat n) kernels d0)) stride
    (wf_alloc _ Wi) (wf_alloc _ Wo)) as V.
  rewrite <- !wf_eq in V by assumption. rewrite V.
  - cbn [bind]. eauto.
  - intros n t En. rewrite (nth_error_nth _ _ _ En).
    destruct (HK t) as (Wt & _ & Ot); [eapply nth_error_In, En|].
    split; [apply wf_eq, Wt|]. split; [apply wf_alloc, Wt|]. split; [|exact Ot].
    apply P; [reflexivity|]. rewrite Nrange_upto.
    assert (Ln : (N.to_nat n < length kernels)%nat) by (apply nth_error_Some; congruence).
    assert (X : nth (N.to_nat n) (combine (upto (len kernels)) kernels) (0, d0) = (n, t)).
    { rewrite combine_nth by (rewrite length_upto; unfold len; lia). rewrite nth_upto by (unfold len; lia).
      rewrite (nth_error_nth _ _ _ En). reflexivity. }
    rewrite <- X. apply nth_In. rewrite combine_length, length_upto. unfold len. lia.
  - rewrite <- Ed. unfold as_u32. apply N.mod_le. discriminate.
Qed.

End Outgoing.
