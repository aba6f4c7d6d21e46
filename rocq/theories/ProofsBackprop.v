(** * Proofs for C16: the outgoing gradient of a convolution *)
From Coq Require Import ZifyBool ZifyNat ZifyN.
From Verif Require Import Base Arith Helper Tensor Convolution Spec Loops TensorFacts OpsFacts ProofsTensor ProofsConv.
Ltac Zify.zify_post_hook ::= Z.div_mod_to_equations.

Lemma Nrange_snoc lo n : lo <= n -> Nrange lo (N.succ n) = Nrange lo n ++ [n].
Proof.
  intros H. unfold Nrange. replace (N.to_nat (N.succ n - lo)) with (S (N.to_nat (n - lo))) by lia.
  rewrite seq_S, map_app. simpl. do 2 f_equal. lia.
Qed.

Lemma filter_nil {A} (f : A -> bool) l : (forall x, In x l -> f x = false) -> filter f l = [].
Proof.
  induction l as [|x l IH]; intros H; [reflexivity|]. simpl. rewrite H by (left; reflexivity).
  apply IH. intros y Hy. apply H. right. exact Hy.
Qed.

Lemma Nrange_filter lo hi n : hi <= n ->
  Nrange lo hi = filter (fun i => (lo <=? i) && (i <? hi)) (upto n).
Proof.
  revert hi. induction n as [|n IH] using N.peano_ind; intros hi H.
  { rewrite Nrange_nil by lia. reflexivity. }
  rewrite upto_succ, filter_app. cbn [filter].
  destruct (N.eq_dec hi (N.succ n)) as [->|D].
  - destruct (N.le_gt_cases lo n).
    + rewrite Nrange_snoc by assumption. replace ((lo <=? n) && (n <? N.succ n)) with true by lia.
      f_equal. rewrite (IH n) by lia. apply filter_ext_in'. intros x Hx. apply in_upto in Hx. lia.
    + rewrite Nrange_nil by lia. replace ((lo <=? n) && (n <? N.succ n)) with false by lia.
      rewrite app_nil_r. symmetry. apply filter_nil.
      intros x Hx. apply in_upto in Hx. lia.
  - rewrite (IH hi) by lia. replace ((lo <=? n) && (n <? hi)) with false by lia. rewrite app_nil_r. reflexivity.
Qed.

Lemma i32_fit_done bm z : (I32_MIN <= z <= I32_MAX)%Z -> i32_fit bm z = Done z.
Proof.
  intros H. unfold i32_fit. destruct (Z.leb_spec I32_MIN z); [|lia]. destruct (Z.leb_spec z I32_MAX); [|lia]. reflexivity.
Qed.

Lemma backprop_range_stride1 bm a kd n : a < 2147483648 -> 0 < kd < 2147483648 -> n = kd ->
  exists lo hi, backprop_range bm a kd 1 = Done (lo, hi) /\ Nrange lo hi = covering n kd 1 a.
Proof.
  intros Ha Hk ->. unfold backprop_range, i32_sub, i32_add.
  assert (E1 : u32_as_i32 a = Z.of_N a) by (unfold u32_as_i32; destruct (N.ltb_spec a 2147483648); lia).
  assert (E2 : u32_as_i32 kd = Z.of_N kd) by (unfold u32_as_i32; destruct (N.ltb_spec kd 2147483648); lia).
  assert (E3 : u32_as_i32 1 = 1%Z) by reflexivity.
  rewrite E1, E2, E3. rewrite i32_fit_done by (unfold I32_MIN, I32_MAX; lia). cbn [bind].
  assert (D : i32_div (Z.of_N a - Z.of_N kd) 1 = Done (Z.of_N a - Z.of_N kd)%Z).
  { unfold i32_div, I32_MIN. cbn [Z.eqb]. rewrite andb_false_r, Z.quot_1_r. reflexivity. }
  rewrite D. cbn [bind]. rewrite i32_fit_done by (unfold I32_MIN, I32_MAX; lia). cbn [bind].
  rewrite u32_div_done by discriminate. cbn [bind]. rewrite N.div_1_r.
  rewrite u32_add_done by (unfold W32; lia). cbn [bind].
  do 2 eexists. split; [reflexivity|].
  assert (E : i32_as_u32 (Z.max (Z.of_N a - Z.of_N kd + 1) 0) = a + 1 - kd).
  { unfold i32_as_u32. rewrite Z.mod_small by lia. lia. }
  rewrite E, Nrange_filter with (n := kd) by lia. unfold covering. apply filter_ext_in'. intros i Hi. apply in_upto in Hi. lia.
Qed.

Section Backprop.
Context {F : Type} {AR : Arith F}.
Notation T := (tensor F).

Lemma vget_all_hold bm (l : list T) s h k : all_hold bm l s h -> k < len l ->
  vget l k = Done (of_fun s (h k)) /\ allocatable s.
Proof.
  intros H L. rewrite vget_nth with (d := of_fun s (h k)) by assumption.
  specialize (H k (nth (N.to_nat k) l (of_fun s (h k)))).
  assert (E : nth_error l (N.to_nat k) = Some (nth (N.to_nat k) l (of_fun s (h k)))) by (apply nth_error_nth'; unfold len in L; lia).
  apply H in E. apply holds_iff in E. destruct E as (A & ->). auto.
Qed.

Lemma check_all_kernels bm (kernels : list T) s ks h stride rs :
  all_hold bm kernels ks h -> len kernels = dk rs -> u32_shape rs ->
  (forall k, k < dk rs -> conv_ok s ks stride rs k) ->
  tryM (combine (Nrange 0 (len kernels)) kernels)
        (fun '(i, kernel) _ =>
           c <- check_convolution_dimensions bm s (get_shape kernel) stride rs (as_u32 i) ;;
           Done (tt, c)) tt = Done (tt, Ok tt).
Proof.
  intros H L U P. rewrite (tryM_ok (fun s _ => s)).
  - f_equal. f_equal. destruct (fold_left _ _ _). reflexivity.
  - intros [i K] [] Hin. rewrite Nrange_upto in Hin. pose proof Hin as Hin'. apply in_combine_l in Hin'. apply in_upto in Hin'.
    assert (E : nth_error kernels (N.to_nat i) = Some K).
    { apply In_nth_error in Hin. destruct Hin as (n & Hn).
      assert (Hl : (n < length (combine (upto (len kernels)) kernels))%nat) by (apply nth_error_Some; congruence).
      rewrite combine_length, length_upto in Hl. unfold len in Hl.
      rewrite (nth_error_nth' _ (0, K)) in Hn by (rewrite combine_length, length_upto; unfold len; lia).
      rewrite combine_nth in Hn by (rewrite length_upto; unfold len; lia). injection Hn as E1 E2.
      replace n with (N.to_nat (N.of_nat n)) in E1 by lia. rewrite nth_upto in E1 by (unfold len; lia). subst i.
      rewrite <- E2. rewrite Nnat.Nat2N.id. apply nth_error_nth'. lia. }
    apply H in E. apply holds_iff in E. destruct E as (A & ->). unfold get_shape. cbn [tshape of_fun].
    assert (Ei : as_u32 i = i) by (unfold as_u32; apply N.mod_small; destruct U as (? & ? & ?); lia). rewrite Ei.
    rewrite check_conv_complete; [reflexivity|exact U|apply P; lia].
Qed.

Lemma outgoing_stride1 bm incoming outgoing (kernels : list T) s rs ks g h o :
  holds bm incoming rs g -> holds bm outgoing s o -> all_hold bm kernels ks h -> len kernels = dk rs ->
  (forall k, k < dk rs -> conv_ok s ks 1 rs k) ->
  di rs = di ks -> dj rs = dj ks -> di s <= 2147483648 -> dj s <= 2147483648 -> 0 < di ks -> 0 < dj ks ->
  exists og, convolution_backprop_outgoing_gradient bm incoming kernels 1 outgoing = Done (og, Ok tt)
    /\ holds bm og s (fun a b c => sum (covering_products rs ks 1 h g a b c)).
Proof.
  intros Hg Ho Hk L P Ei Ej Bi Bj Zi Zj. holds_start.
  exists (of_fun s (fun a b c => sum (covering_products rs ks 1 h g a b c))).
  split; [|apply holds_of_fun; assumption].
  unfold convolution_backprop_outgoing_gradient, get_shape. cbn [tshape of_fun]. fold (of_fun rs g) (of_fun s o).
  pose proof (check_all_kernels bm kernels s ks h 1 rs Hk L (u32_shape_alloc rs ltac:(assumption)) P) as C.
  unfold get_shape in C. rewrite C. cbn [bind].
  assert (E : as_u32 (len kernels) = dk rs).
  { unfold as_u32. rewrite L. apply N.mod_small. apply (u32_shape_alloc rs); assumption. }
  rewrite E, N.eqb_refl. cbn [negb].
  rewrite for_kji_write with (v := fun a b c => sum (covering_products rs ks 1 h g a b c)); [reflexivity|].
  intros a b c f' Hin. pose proof Hin as (Ha & Hb & Hc).
  assert (W : for_ 0 (dk rs) (fun k acc =>
                kernel <- vget kernels k ;;
                '(i_start, i_stop) <- backprop_range bm a (di (tshape kernel)) 1 ;;
                '(j_start, j_stop) <- backprop_range bm b (dj (tshape kernel)) 1 ;;
                for_ j_start j_stop (fun j =>
                  for_ i_start i_stop (fun i acc =>
                    gid <- get_data_index bm (of_fun rs g) (mkIndex i j k) ;;
                    oi <- u32_mul bm 1 i ;;
                    xi <- u32_sub bm a oi ;;
                    oj <- u32_mul bm 1 j ;;
                    xj <- u32_sub bm b oj ;;
                    kid <- get_data_index bm kernel (mkIndex xi xj c) ;;
                    kv <- data_get kernel kid ;;
                    g0 <- data_get (of_fun rs g) gid ;;
                    Done (fadd acc (fmul kv g0)))) acc) fzero
              = Done (sum (covering_products rs ks 1 h g a b c))).
  { unfold for_ at 1. rewrite Nrange_upto. unfold covering_products, sum.
    apply forM_acc_flat. intros k acc Hkk. apply in_upto in Hkk.
    destruct (vget_all_hold bm kernels ks h k Hk) as (Ek & Ak); [lia|]. rewrite Ek. cbn [bind tshape of_fun].
    fold (of_fun ks (h k)).
    destruct (P k Hkk) as (Edk & (_ & Ti1 & Ti2 & Ti3) & (_ & Tj1 & Tj2 & Tj3) & _).
    destruct (backprop_range_stride1 bm a (di ks) (di rs)) as (lo & hi & E1 & E2); [lia|lia|assumption|].
    destruct (backprop_range_stride1 bm b (dj ks) (dj rs)) as (lo' & hi' & E1' & E2'); [lia|lia|assumption|].
    rewrite E1, E1'. cbn [bind]. unfold for_. rewrite E2, E2'.
    apply forM_acc_flat. intros j acc' Hj. unfold covering in Hj. apply filter_In in Hj. destruct Hj as (Hj & Hjc). apply in_upto in Hj.
    apply forM_acc. intros i acc'' Hi. unfold covering in Hi. apply filter_In in Hi. destruct Hi as (Hi & Hic). apply in_upto in Hi.
    assert (I1 : in_shape rs i j k) by (repeat split; assumption).
    assert (I2 : in_shape ks (a - 1 * i) (b - 1 * j) c) by (repeat split; lia).
    rewrite data_index_of_fun by assumption. cbn [bind].
    pose proof (u32_shape_alloc rs ltac:(assumption)) as (U1 & U2 & U3).
    rewrite u32_mul_done by lia. cbn [bind]. rewrite u32_sub_done by lia. cbn [bind].
    rewrite u32_mul_done by lia. cbn [bind]. rewrite u32_sub_done by lia. cbn [bind].
    rewrite data_index_of_fun by assumption. cbn [bind].
    rewrite data_get_of_fun by assumption. cbn [bind].
    rewrite data_get_of_fun by assumption. reflexivity. }
  rewrite W. cbn [bind]. rewrite data_index_of_fun by assumption. cbn [bind]. apply data_set_of_fun. assumption.
Qed.

End Backprop.
