(** * Proofs for C11, C12, C13, C15, C17 *)
From Coq Require Import ZifyBool ZifyNat ZifyN.
From Verif Require Import Base Arith Helper Tensor Convolution Network Spec Loops TensorFacts OpsFacts ProofsTensor.
Ltac Zify.zify_post_hook ::= Z.div_mod_to_equations.

Ltac res_inv := repeat match goal with
  | H : bind _ _ = Done _ |- _ => apply bind_done in H; let x := fresh "x" in let E := fresh "E" in destruct H as (x & E & H)
  | H : Done _ = Done _ |- _ => injection H as H; subst
  end.

Section Generic.
Context {F : Type} {AR : Arith F}.
Notation T := (tensor F).

(** ** C11 *)
Lemma upto_snoc {A} (l : list A) x : upto (len (l ++ [x])) = upto (len l) ++ [len l].
Proof. unfold len. rewrite app_length; simpl. rewrite Nat.add_1_r, Nat2N.inj_succ. apply upto_succ. Qed.

Lemma combine_snoc {A B} (la : list A) (lb : list B) a b :
  length la = length lb -> combine (la ++ [a]) (lb ++ [b]) = combine la lb ++ [(a, b)].
Proof.
  revert lb; induction la as [|x la IH]; intros [|y lb] H; simpl in *; try discriminate; [reflexivity|].
  rewrite IH by lia. reflexivity.
Qed.

Lemma filter_ext_in' {A} (f g : A -> bool) l : (forall x, In x l -> f x = g x) -> filter f l = filter g l.
Proof.
  induction l as [|a l IH]; simpl; intros H; [reflexivity|]. rewrite (H a), IH by auto. reflexivity.
Qed.

Lemma sources_snoc l x p : sources (l ++ [x]) p = sources l p ++ (if x =? p then [len l] else []).
Proof.
  unfold sources. rewrite upto_snoc, filter_app. f_equal.
  - apply filter_ext_in'. intros q Hq. apply in_upto in Hq. rewrite nth_error_app1; [reflexivity|].
    unfold len in Hq. lia.
  - simpl. rewrite nth_error_app2 by (unfold len; lia).
    replace (N.to_nat (len l) - length l)%nat with 0%nat by (unfold len; lia). simpl. destruct (x =? p); reflexivity.
Qed.

Lemma sources_combine l p :
  map fst (filter (fun x => snd x =? p) (combine (upto (len l)) l)) = sources l p.
Proof.
  induction l as [|x l IH] using rev_ind; [reflexivity|].
  rewrite upto_snoc, combine_snoc by (rewrite length_upto; unfold len; lia).
  rewrite filter_app, map_app, IH, sources_snoc. f_equal. simpl. destruct (x =? p); reflexivity.
Qed.

Lemma scatter_sources (f g : N -> F) l p :
  scatter f g (combine (upto (len l)) l) p = fold_left fadd (map f (sources l p)) (g p).
Proof. unfold scatter. rewrite <- sources_combine, map_map. reflexivity. Qed.

Lemma firstn_upto m n : m <= n -> firstn (N.to_nat m) (upto n) = upto m.
Proof.
  intros H. unfold upto. rewrite firstn_map. f_equal.
  replace (N.to_nat n) with (N.to_nat m + (N.to_nat n - N.to_nat m))%nat by lia.
  rewrite seq_app, firstn_app, seq_length, Nat.sub_diag, firstn_O, app_nil_r.
  apply firstn_all2. rewrite seq_length. lia.
Qed.

Lemma length_prefix_below n l : (length (prefix_below n l) <= length l)%nat.
Proof. induction l as [|x l IH]; simpl; [lia|]. destruct (x <? n); simpl; lia. Qed.

Lemma valid_prefix_combine n ql l : length ql = length l ->
  valid_prefix n (combine ql l) = combine (firstn (length (prefix_below n l)) ql) (prefix_below n l).
Proof.
  revert ql; induction l as [|x l IH]; intros [|q ql] H; simpl in *; try discriminate; [reflexivity|].
  destruct (N.leb_spec n x).
  - replace (x <? n) with false by lia. reflexivity.
  - replace (x <? n) with true by lia. simpl. f_equal. apply IH. lia.
Qed.

Lemma valid_prefix_upto n l :
  valid_prefix n (combine (upto (len l)) l) = combine (upto (len (prefix_below n l))) (prefix_below n l).
Proof.
  rewrite valid_prefix_combine by (rewrite length_upto; unfold len; lia). f_equal.
  pose proof (length_prefix_below n l). rewrite <- (firstn_upto (len (prefix_below n l)) (len l)) by (unfold len; lia).
  f_equal. unfold len; lia.
Qed.

Lemma prefix_below_all n l : (forall p, In p l -> p < n) -> prefix_below n l = l.
Proof.
  induction l as [|x l IH]; simpl; intros H; [reflexivity|].
  replace (x <? n) with true by (specialize (H x); lia). rewrite IH; auto.
Qed.

Lemma all_valid_combine n l : all_valid n (combine (upto (len l)) l) = forallb (fun p => p <? n) l.
Proof.
  induction l as [|x l IH] using rev_ind; [reflexivity|].
  rewrite upto_snoc, combine_snoc by (rewrite length_upto; unfold len; lia).
  unfold all_valid in *. rewrite !forallb_app, IH. reflexivity.
Qed.

Lemma scatter_add_spec bm (src dst : T) s1 s2 f g l :
  holds bm src s1 (fun i j k => f (flat s1 i j k)) -> holds bm dst s2 (fun i j k => g (flat s2 i j k)) ->
  (len l <= di s1 * dj s1 * dk s1 -> (forall p, In p l -> p < di s2 * dj s2 * dk s2) ->
     exists d, add_from_index_list bm src dst l = Done (d, Ok tt)
       /\ holds bm d s2 (fun i j k => fold_left fadd (map f (sources l (flat s2 i j k))) (g (flat s2 i j k))))
  /\ (len l <= di s1 * dj s1 * dk s1 -> (exists p, In p l /\ di s2 * dj s2 * dk s2 <= p) ->
     exists d e, add_from_index_list bm src dst l = Done (d, Err e)
       /\ holds bm d s2 (fun i j k => fold_left fadd
              (map f (sources (prefix_below (di s2 * dj s2 * dk s2) l) (flat s2 i j k))) (g (flat s2 i j k))))
  /\ (di s1 * dj s1 * dk s1 < len l -> exists e, add_from_index_list bm src dst l = Done (dst, Err e)).
Proof.
  intros Hs Hd. holds_start. fold (of_flat s1 f) (of_flat s2 g). split; [|split].
  - intros L Hb. eexists. rewrite scatter_of_flat by assumption. rewrite all_valid_combine, valid_prefix_upto.
    replace (forallb (fun p => p <? di s2 * dj s2 * dk s2) l) with true
      by (symmetry; apply forallb_forall; intros p Hp; specialize (Hb p Hp); lia).
    split; [reflexivity|]. apply holds_iff. split; [assumption|]. apply of_fun_ext. intros i j k _.
    rewrite scatter_sources, prefix_below_all by assumption. reflexivity.
  - intros L (p & Hp & Hb). do 2 eexists. rewrite scatter_of_flat by assumption.
    rewrite all_valid_combine, valid_prefix_upto.
    replace (forallb (fun p => p <? di s2 * dj s2 * dk s2) l) with false.
    2:{ symmetry. apply not_true_is_false. intros E. rewrite forallb_forall in E. specialize (E p Hp). lia. }
    split; [reflexivity|]. apply holds_iff. split; [assumption|]. apply of_fun_ext. intros i j k _.
    rewrite scatter_sources. reflexivity.
  - intros L. unfold add_from_index_list, get_shape. cbn [tshape of_flat of_fun].
    rewrite total_size_done by assumption. cbn [bind].
    replace (di s1 * dj s1 * dk s1 <? len l) with true by lia. eexists; reflexivity.
Qed.

End Generic.

(** ** C12, C15 *)
Lemma tiles_extent m e stride n : tiles m e stride n -> n < W32 -> (m - e) / stride + 1 < W32.
Proof. intros (_ & _ & _ & ->). auto. Qed.

Lemma check_conv_complete bm im kernel stride r ch :
  u32_shape r -> conv_ok im kernel stride r ch -> check_convolution_dimensions bm im kernel stride r ch = Done (Ok tt).
Proof.
  intros (R1 & R2 & R3) P. pose proof P as (E & Ti & Tj & C).
  pose proof (tiles_extent _ _ _ _ Ti R1). pose proof (tiles_extent _ _ _ _ Tj R2).
  destruct Ti as (T1 & T2 & T3 & T4), Tj as (T5 & T6 & T7 & T8).
  destruct (check_conv_spec bm im kernel stride r ch) as (c & Hc & Hi); try assumption.
  rewrite Hc. f_equal. apply Hi. exact P.
Qed.

Lemma u32_sub_debug x y z : u32_sub Debug x y = Done z -> y <= x /\ z = x - y.
Proof. unfold u32_sub. destruct (N.leb_spec y x); [|discriminate]. intros [= <-]. auto. Qed.

Lemma u32_add_debug x y z : u32_add Debug x y = Done z -> x + y < W32 /\ z = x + y.
Proof. unfold u32_add. destruct (N.ltb_spec (x + y) W32); [|discriminate]. intros [= <-]. auto. Qed.

Lemma u32_rem_inv x y z : u32_rem x y = Done z -> y <> 0 /\ z = x mod y.
Proof. unfold u32_rem. destruct (N.eqb_spec y 0); [discriminate|]. intros [= <-]. auto. Qed.

Lemma u32_div_inv x y z : u32_div x y = Done z -> y <> 0 /\ z = x / y.
Proof. unfold u32_div. destruct (N.eqb_spec y 0); [discriminate|]. intros [= <-]. auto. Qed.

Ltac u32_inv := repeat match goal with
  | H : u32_sub Debug _ _ = Done _ |- _ => apply u32_sub_debug in H; destruct H as (? & H); subst
  | H : u32_add Debug _ _ = Done _ |- _ => apply u32_add_debug in H; destruct H as (? & H); subst
  | H : u32_rem _ _ = Done _ |- _ => apply u32_rem_inv in H; destruct H as (? & H); subst
  | H : u32_div _ _ = Done _ |- _ => apply u32_div_inv in H; destruct H as (? & H); subst
  end.

Lemma check_conv_debug_sound im kernel stride r ch :
  check_convolution_dimensions Debug im kernel stride r ch = Done (Ok tt) -> conv_ok im kernel stride r ch.
Proof.
  unfold check_convolution_dimensions, conv_ok, tiles. intros H.
  destruct (N.eqb_spec (dk im) (dk kernel)); cbn [negb] in H; [|discriminate].
  apply bind_done in H. destruct H as (d0 & E0 & H). apply bind_done in H. destruct H as (m0 & E1 & H).
  destruct (N.eqb_spec m0 0); cbn [negb] in H; [|discriminate].
  apply bind_done in H. destruct H as (d1 & E2 & H). apply bind_done in H. destruct H as (m1 & E3 & H).
  destruct (N.eqb_spec m1 0); cbn [negb] in H; [|discriminate].
  res_inv. u32_inv.
  destruct (N.eqb_spec (di r) ((di im - di kernel) / stride + 1)); cbn [negb] in H; [|discriminate].
  destruct (N.eqb_spec (dj r) ((dj im - dj kernel) / stride + 1)); cbn [negb] in H; [|discriminate].
  destruct (N.leb_spec (dk r) ch); [discriminate|]. repeat split; solve [assumption|symmetry; assumption].
Qed.

Lemma check_conv_debug_iff im kernel stride r ch :
  u32_shape r ->
  (check_convolution_dimensions Debug im kernel stride r ch = Done (Ok tt) <-> conv_ok im kernel stride r ch).
Proof. intros R. split; [apply check_conv_debug_sound|apply check_conv_complete; exact R]. Qed.

(** The +1 overflows only for an empty kernel extent on the largest u32 image. *)
Lemma extent_overflow m e stride :
  m < W32 -> e <= m -> stride <> 0 -> W32 <= (m - e) / stride + 1 -> m = W32 - 1 /\ e = 0 /\ stride = 1.
Proof.
  intros Hm He Hs H.
  assert (D : stride * ((m - e) / stride) <= m - e) by (apply N.mul_div_le; assumption).
  unfold W32 in *. assert (stride = 1) by nia. subst. nia.
Qed.

Lemma check_conv_panic bm im kernel stride r ch p :
  u32_shape im -> check_convolution_dimensions bm im kernel stride r ch = Panic p ->
  stride = 0 \/ ~ kernel_fits im kernel \/ extent_edge (di im) (di kernel) stride \/ extent_edge (dj im) (dj kernel) stride.
Proof.
  intros (U1 & U2 & U3) H.
  destruct (N.eq_dec stride 0) as [|Hs]; [left; assumption|right].
  destruct (N.le_gt_cases (di kernel) (di im)) as [Hi|]; [|left; unfold kernel_fits; lia].
  destruct (N.le_gt_cases (dj kernel) (dj im)) as [Hj|]; [|left; unfold kernel_fits; lia].
  right. destruct (N.lt_ge_cases ((di im - di kernel) / stride + 1) W32) as [Bi|Bi];
    [|left; apply extent_overflow; assumption].
  destruct (N.lt_ge_cases ((dj im - dj kernel) / stride + 1) W32) as [Bj|Bj];
    [|right; apply extent_overflow; assumption].
  destruct (check_conv_spec bm im kernel stride r ch) as (c & Hc & _); try assumption. congruence.
Qed.

Lemma u32_sub_release x y : x < W32 -> y < W32 -> u32_sub Release x y = Done (wrapping_sub x y).
Proof.
  intros Hx Hy. unfold u32_sub, wrapping_sub. destruct (N.leb_spec y x).
  - replace (x + W32 - y) with (x - y + 1 * W32) by lia. rewrite N.mod_add by discriminate.
    rewrite N.mod_small by lia. reflexivity.
  - rewrite N.mod_small by lia. reflexivity.
Qed.

Lemma check_conv_release_iff im kernel stride r ch :
  u32_shape im -> u32_shape kernel ->
  (check_convolution_dimensions Release im kernel stride r ch = Done (Ok tt) <->
   dk im = dk kernel /\ wrapped_tiles (di im) (di kernel) stride (di r)
   /\ wrapped_tiles (dj im) (dj kernel) stride (dj r) /\ ch < dk r).
Proof.
  intros (U1 & U2 & U3) (V1 & V2 & V3). unfold check_convolution_dimensions, wrapped_tiles.
  destruct (N.eqb_spec (dk im) (dk kernel)); cbn [negb]; [|split; [discriminate|tauto]].
  rewrite !u32_sub_release by assumption. cbn [bind].
  destruct (N.eq_dec stride 0) as [->|Hs]; [cbn; split; [discriminate|tauto]|].
  rewrite !u32_rem_done by assumption. cbn [bind].
  destruct (N.eqb_spec (wrapping_sub (di im) (di kernel) mod stride) 0); cbn [negb]; [|split; [discriminate|tauto]].
  destruct (N.eqb_spec (wrapping_sub (dj im) (dj kernel) mod stride) 0); cbn [negb]; [|split; [discriminate|tauto]].
  rewrite !u32_div_done by assumption. cbn [bind]. rewrite !u32_add_release. cbn [bind].
  destruct (N.eqb_spec (di r) ((wrapping_sub (di im) (di kernel) / stride + 1) mod W32)); cbn [negb];
    [|split; [discriminate|tauto]].
  destruct (N.eqb_spec (dj r) ((wrapping_sub (dj im) (dj kernel) / stride + 1) mod W32)); cbn [negb];
    [|split; [discriminate|tauto]].
  destruct (N.leb_spec (dk r) ch); split; try discriminate; try tauto; try lia.
Qed.

Lemma wrapping_sub_le m e : m < W32 -> e <= m -> wrapping_sub m e = m - e.
Proof.
  intros Hm He. unfold wrapping_sub. replace (m + W32 - e) with (m - e + 1 * W32) by lia.
  rewrite N.mod_add by discriminate. apply N.mod_small. lia.
Qed.

Lemma wrapped_tiles_fit m e stride n :
  m < W32 -> e <= m -> n <> 0 -> wrapped_tiles m e stride n -> tiles m e stride n.
Proof.
  intros Hm He Hn (Hs & Hr & ->). rewrite wrapping_sub_le in * by assumption.
  destruct (N.lt_ge_cases ((m - e) / stride + 1) W32) as [B|B].
  - rewrite N.mod_small in * by assumption. repeat split; assumption.
  - apply extent_overflow in B; try assumption. destruct B as (-> & -> & ->). exfalso. apply Hn. reflexivity.
Qed.

(** ** C15 *)
Lemma kernel_fit_debug im kernel stride :
  does_kernel_stride_fit_image Debug im kernel stride = Done true -> kernel_fits im kernel.
Proof.
  unfold does_kernel_stride_fit_image, kernel_fits. intros H.
  apply bind_done in H. destruct H as (d0 & E0 & H). apply bind_done in H. destruct H as (m0 & E1 & H).
  destruct (N.eqb_spec m0 0); cbn [negb] in H; [|discriminate].
  apply bind_done in H. destruct H as (d1 & E2 & H). apply bind_done in H. destruct H as (m1 & E3 & H).
  u32_inv. auto.
Qed.

Lemma cv_fill_fits {F} {AR : Arith F} (l : conv_layer F) kernels biases ins stride name l' :
  cv_fill_from_state Debug l kernels biases ins stride name = Done (l', Ok tt) ->
  forall k, In k kernels -> kernel_fits ins (tshape k).
Proof.
  unfold cv_fill_from_state. intros H k Hk. destruct kernels as [|k0 ks]; [destruct Hk|].
  destruct (forallb (fun k => shape_eqb (get_shape k) (get_shape k0)) (k0 :: ks)) eqn:E; cbn [negb] in H; [|discriminate].
  apply bind_done in H. destruct H as (fits & Ef & H). destruct fits; cbn [negb] in H; [|discriminate].
  rewrite forallb_forall in E. specialize (E k Hk). apply shape_eqb_eq in E. unfold get_shape in *. rewrite E.
  eapply kernel_fit_debug; eassumption.
Qed.

Lemma cv_new_fits {F} {AR : Arith F} ks ins stride depth name (l : conv_layer F) :
  cv_new Debug ks ins stride depth name = Done (Ok l) -> kernel_fits ins ks.
Proof.
  unfold cv_new. intros H. res_inv. destruct x2 as [l' [[]|e]]; [|discriminate].
  assert (S : tshape x0 = ks).
  { unfold tensor_new in E0. res_inv. reflexivity. }
  rewrite <- S. eapply cv_fill_fits; [exact E2|].
  destruct (N.to_nat depth) eqn:Ed; [|left; reflexivity].
  simpl in E2. discriminate.
Qed.

Lemma mp_fill_fits l ins mask stride name l' :
  mp_fill_from_state Debug l ins mask stride name = Done (l', Ok tt) -> kernel_fits ins mask.
Proof.
  unfold mp_fill_from_state. intros H. apply bind_done in H. destruct H as (fits & Ef & H).
  destruct fits; cbn [negb] in H; [|discriminate]. eapply kernel_fit_debug; eassumption.
Qed.

Lemma mp_new_fits mask ins stride name l : mp_new Debug mask ins stride name = Done (Ok l) -> kernel_fits ins mask.
Proof.
  unfold mp_new. intros H. apply bind_done in H. destruct H as ([l' [[]|e]] & E & H); [|discriminate].
  eapply mp_fill_fits; eassumption.
Qed.

Lemma kernel_fit_release im kernel stride : u32_shape im -> u32_shape kernel ->
  (does_kernel_stride_fit_image Release im kernel stride = Done true <->
   stride <> 0 /\ wrapping_sub (di im) (di kernel) mod stride = 0 /\ wrapping_sub (dj im) (dj kernel) mod stride = 0).
Proof.
  intros (U1 & U2 & U3) (V1 & V2 & V3). unfold does_kernel_stride_fit_image.
  rewrite !u32_sub_release by assumption. cbn [bind].
  destruct (N.eq_dec stride 0) as [->|Hs]; [cbn; split; [discriminate|tauto]|].
  rewrite !u32_rem_done by assumption. cbn [bind].
  destruct (N.eqb_spec (wrapping_sub (di im) (di kernel) mod stride) 0); cbn [negb]; [|split; [discriminate|tauto]].
  destruct (N.eqb_spec (wrapping_sub (dj im) (dj kernel) mod stride) 0); cbn [negb]; [|split; [discriminate|tauto]].
  tauto.
Qed.

(** ** C13 *)
Section Conv.
Context {F : Type} {AR : Arith F}.
Notation T := (tensor F).

(** Both forward convolutions, with the function applied to the biased sum as a parameter. *)
Definition conv_with (post : F -> F) bm (image kernel bias : T) (stride : N) (r : T) (channel : N)
  : res (T * result unit) :=
  chk <- check_convolution_dimensions bm (get_shape image) (get_shape kernel) stride (get_shape r) channel ;;
  match chk with
  | Err e => Done (r, Err e)
  | Ok _ =>
      let bs := get_shape bias in
      if (1 <? di bs) || (1 <? dj bs) || (1 <? dk bs) then
        Done (r, Err "bias should be a 1x1x1 tensor"%string)
      else
        bias_value <- get_item bm bias (mkIndex 0 0 0) ;;
        r' <- for_ 0 (dj (get_shape r)) (fun j =>
                for_ 0 (di (get_shape r)) (fun i r =>
                  v <- conv_window bm image kernel stride i j ;;
                  id <- get_data_index bm r (mkIndex i j channel) ;;
                  data_set r id (post (fadd v bias_value)))) r ;;
        Done (r', Ok tt)
  end.

Lemma convolution_bias_with bm (image kernel bias : T) stride r ch :
  convolution_bias bm image kernel bias stride r ch = conv_with (fun x => x) bm image kernel bias stride r ch.
Proof. reflexivity. Qed.

Lemma convolution_bias_relu_with bm (image kernel bias : T) stride r ch :
  convolution_bias_relu bm image kernel bias stride r ch
  = conv_with (fun x => fmax x fzero) bm image kernel bias stride r ch.
Proof. reflexivity. Qed.

Lemma conv_with_of_fun post bm s f ks h bs fb stride r g ch :
  allocatable s -> allocatable ks -> allocatable bs -> allocatable r ->
  conv_ok s ks stride r ch -> one_cell bs ->
  conv_with post bm (of_fun s f) (of_fun ks h) (of_fun bs fb) stride (of_fun r g) ch
  = Done (of_fun r (fun i j k => if k =? ch then post (fadd (sum (conv_terms ks stride f h i j)) (bias_value bs fb))
                                 else g i j k), Ok tt).
Proof.
  intros Ha Hk Hb Hr P B. unfold conv_with, get_shape. cbn [tshape of_fun].
  rewrite check_conv_complete; [|destruct Hr as (?&?&?&?&?); repeat split; assumption|exact P]. cbn [bind].
  apply one_cell_guard in B. rewrite B. fold (of_fun s f) (of_fun ks h) (of_fun bs fb) (of_fun r g).
  rewrite get_bias by assumption. cbn [bind].
  rewrite channel_write with (ch := ch) (v := fun i j => post (fadd (sum (conv_terms ks stride f h i j)) (bias_value bs fb))).
  - reflexivity.
  - apply P.
  - intros i j f' Hi Hj. rewrite conv_window_of_fun with (r := r) (ch := ch) by assumption. cbn [bind].
    assert (Hin : in_shape r i j ch) by (repeat split; try assumption; apply P).
    rewrite data_index_of_fun by assumption. cbn [bind]. apply data_set_of_fun. assumption.
Qed.

(** If a loop completes, its body completed at every index (from some state satisfying an invariant). *)
Lemma forM_done_body {A S} (l : list A) (f : A -> S -> res S) s s' x :
  forM l f s = Done s' -> In x l -> exists s1 s2, f x s1 = Done s2.
Proof.
  revert s; induction l as [|a l IH]; intros s E Hin; simpl in *; [destruct Hin|].
  apply bind_done in E. destruct E as (s1 & E1 & E2). destruct Hin as [->|Hin]; eauto.
Qed.

Lemma forM_const {A S} (l : list A) (f : A -> S -> res S) s0 :
  (forall x s, f x s = Done s) -> forM l f s0 = Done s0.
Proof. intros H. induction l as [|x l IH]; simpl; [reflexivity|]. rewrite H. exact IH. Qed.

Lemma window_done_all bm s (f : N -> N -> N -> F) ks h stride i j v :
  conv_window bm (of_fun s f) (of_fun ks h) stride i j = Done v ->
  exists i0 j0, u32_mul bm i stride = Done i0 /\ u32_mul bm j stride = Done j0 /\
  forall ki kj kk, in_shape ks ki kj kk ->
    exists ii jj id x, u32_add bm i0 ki = Done ii /\ u32_add bm j0 kj = Done jj
      /\ get_data_index bm (of_fun s f) (mkIndex ii jj kk) = Done id /\ data_get (of_fun s f) id = Done x.
Proof.
  unfold conv_window, get_shape. cbn [tshape of_fun]. intros H.
  apply bind_done in H. destruct H as (i0 & Ei & H). apply bind_done in H. destruct H as (j0 & Ej & H).
  exists i0, j0. split; [exact Ei|]. split; [exact Ej|]. intros ki kj kk Hin.
  rewrite for_kji_cells in H. apply in_cells in Hin.
  destruct (forM_done_body _ _ _ _ _ H Hin) as (s1 & s2 & E). cbn beta iota in E.
  apply bind_done in E. destruct E as (kid & _ & E).
  apply bind_done in E. destruct E as (ii & Eii & E). apply bind_done in E. destruct E as (jj & Ejj & E).
  apply bind_done in E. destruct E as (id & Eid & E). apply bind_done in E. destruct E as (x & Ex & E).
  exists ii, jj, id, x. auto.
Qed.

Lemma get_past_end s (f : N -> N -> N -> F) i j k :
  allocatable s -> flat s i j k = di s * dj s * dk s ->
  forall id x, get_data_index Release (of_fun s f) (mkIndex i j k) = Done id -> data_get (of_fun s f) id = Done x -> False.
Proof.
  intros (A1 & A2 & A3 & A4 & A5) E id x Hid Hx. unfold get_data_index in Hid. cbn [strides of_fun] in Hid.
  unfold strides_of in Hid. rewrite <- (N.mod_small (di s * dj s) W32 A4) in Hid.
  rewrite stride_mul_release in Hid. injection Hid as <-. rewrite E in Hx.
  unfold data_get in Hx. apply vget_done in Hx. destruct Hx as (Hx & _).
  rewrite N.mod_small in Hx by assumption. unfold len, of_fun in Hx; cbn [data] in Hx.
  rewrite map_length, length_cells in Hx. lia.
Qed.

(** A release build that accepts a too large kernel panics, unless there is nothing to compute. *)
Lemma release_wrapped_empty s (f : N -> N -> N -> F) ks h stride r ch (body : N -> N -> T -> res T) (r0 r1 : T) :
  allocatable s -> allocatable ks -> u32_shape r ->
  check_convolution_dimensions Release s ks stride r ch = Done (Ok tt) -> ~ conv_ok s ks stride r ch ->
  (forall i j a b, body i j a = Done b -> exists v, conv_window Release (of_fun s f) (of_fun ks h) stride i j = Done v) ->
  for_ 0 (dj r) (fun j => for_ 0 (di r) (fun i => body i j)) r0 = Done r1 ->
  (di r = 0 \/ dj r = 0) \/ cells ks = [].
Proof.
  intros Ha Hk Hr C P Hbody L.
  destruct (N.eq_dec (di r) 0) as [|Ri]; [auto|]. destruct (N.eq_dec (dj r) 0) as [|Rj]; [auto|].
  right. destruct (cells ks) as [|c cs] eqn:Ec; [reflexivity|exfalso].
  assert (Ne : 0 < di ks /\ 0 < dj ks /\ 0 < dk ks).
  { assert (Hin : In c (cells ks)) by (rewrite Ec; left; reflexivity). destruct c as [[ci cj] ck].
    apply in_cells in Hin. unfold in_shape in Hin. lia. }
  pose proof Ha as (A1 & A2 & A3 & A4 & A5). pose proof Hk as (K1 & K2 & K3 & K4 & K5).
  destruct Hr as (R1 & R2 & R3).
  apply check_conv_release_iff in C; [|repeat split; assumption|repeat split; assumption].
  destruct C as (Ek & Wi & Wj & Hch).
  assert (Done_at : forall i j, i < di r -> j < dj r ->
            exists v, conv_window Release (of_fun s f) (of_fun ks h) stride i j = Done v).
  { intros i j Hi Hj. unfold for_ in L. rewrite Nrange_upto in L.
    destruct (forM_done_body _ _ _ _ j L) as (s1 & s2 & E); [apply in_upto; exact Hj|]. rewrite Nrange_upto in E.
    destruct (forM_done_body _ _ _ _ i E) as (s3 & s4 & E'); [apply in_upto; exact Hi|]. eapply Hbody; exact E'. }
  destruct (N.le_gt_cases (dj ks) (dj s)) as [Fj|Fj].
  - destruct (N.le_gt_cases (di ks) (di s)) as [Fi|Fi].
    + apply P. split; [exact Ek|]. split; [apply wrapped_tiles_fit; assumption|].
      split; [apply wrapped_tiles_fit; assumption|exact Hch].
    + pose proof (wrapped_tiles_fit _ _ _ _ A2 Fj Rj Wj) as (_ & _ & Mj & Ej).
      assert (Hs : stride <> 0) by apply Wi.
      assert (Ds : (dj r - 1) * stride = dj s - dj ks).
      { rewrite Ej, N.add_sub. pose proof (N.div_mod (dj s - dj ks) stride Hs). rewrite Mj in *. lia. }
      destruct (Done_at 0 (dj r - 1)) as (v & Ev); [lia|lia|].
      apply window_done_all in Ev. destruct Ev as (i0 & j0 & Ei0 & Ej0 & H).
      rewrite u32_mul_done in Ei0, Ej0 by (unfold W32 in *; lia). injection Ei0 as <-. injection Ej0 as <-.
      destruct (H (di s) (dj ks - 1) (dk ks - 1)) as (ii & jj & id & x & Eii & Ejj & Eid & Ex); [repeat split; lia|].
      rewrite u32_add_done in Eii, Ejj by lia. injection Eii as <-. injection Ejj as <-.
      eapply get_past_end; [exact Ha| |exact Eid|exact Ex]. unfold flat. rewrite Ds.
      replace (0 * stride + di s) with (di s) by lia. replace (dj s - dj ks + (dj ks - 1)) with (dj s - 1) by lia.
      rewrite <- Ek. assert (J : 1 <= dj s) by lia. assert (K : 1 <= dk s) by lia. clear - J K.
      replace (di s + di s * (dj s - 1)) with (di s * dj s) by (rewrite N.mul_sub_distr_l, N.mul_1_r; apply N.mul_le_mono_l with (p := di s) in J; lia).
      rewrite (N.mul_sub_distr_l _ _ (di s * dj s)), N.mul_1_r. apply N.mul_le_mono_l with (p := di s * dj s) in K. lia.
  - destruct (Done_at 0 0) as (v & Ev); [lia|lia|].
    apply window_done_all in Ev. destruct Ev as (i0 & j0 & Ei0 & Ej0 & H).
    rewrite u32_mul_done in Ei0, Ej0 by (unfold W32 in *; lia). injection Ei0 as <-. injection Ej0 as <-.
    destruct (H 0 (dj s) (dk ks - 1)) as (ii & jj & id & x & Eii & Ejj & Eid & Ex); [repeat split; lia|].
    rewrite u32_add_done in Eii, Ejj by (unfold W32 in *; lia). injection Eii as <-. injection Ejj as <-.
    eapply get_past_end; [exact Ha| |exact Eid|exact Ex]. unfold flat.
    replace (0 * stride + dj s) with (dj s) by lia. rewrite <- Ek. nia.
Qed.

Lemma u32_shape_alloc s : allocatable s -> u32_shape s.
Proof. intros (H1 & H2 & H3 & _). repeat split; assumption. Qed.

Lemma conv_window_nil bm s (f : N -> N -> N -> F) ks h stride i j v :
  cells ks = [] -> conv_window bm (of_fun s f) (of_fun ks h) stride i j = Done v -> v = fzero.
Proof.
  intros E H. unfold conv_window in H. res_inv. unfold get_shape in H. cbn [tshape of_fun] in H.
  rewrite for_kji_cells, E in H. simpl in H. injection H as <-. reflexivity.
Qed.

Definition conv_result (post : F -> F) ks stride f h bv g ch (i j k : N) : F :=
  if k =? ch then post (fadd (sum (conv_terms ks stride f h i j)) bv) else g i j k.

(** Everything an Ok or Err answer of a forward convolution says. *)
Lemma conv_with_spec post bm image kernel bias r s ks bs rs f h fb g bv stride ch :
  holds bm image s f -> holds bm kernel ks h -> holds bm bias bs fb -> holds bm r rs g ->
  get_item bm bias (mkIndex 0 0 0) = Done bv ->
  (conv_ok s ks stride rs ch -> at_most_one bs ->
     exists r', conv_with post bm image kernel bias stride r ch = Done (r', Ok tt))
  /\ (forall r', conv_with post bm image kernel bias stride r ch = Done (r', Ok tt) ->
        holds bm r' rs (conv_result post ks stride f h bv g ch) /\ at_most_one bs /\ dk s = dk ks /\ ch < dk rs)
  /\ (forall r' e, conv_with post bm image kernel bias stride r ch = Done (r', Err e) -> r' = r)
  /\ (bm = Debug \/ kernel_fits s ks ->
        forall r', conv_with post bm image kernel bias stride r ch = Done (r', Ok tt) -> 0 < di rs -> 0 < dj rs ->
        conv_ok s ks stride rs ch).
Proof.
  intros Hi Hk Hb Hr Hbv. holds_start.
  assert (Ebv : bv = bias_value bs fb) by (rewrite get_bias in Hbv by assumption; congruence). subst bv.
  change at_most_one with one_cell.
  assert (OkCase : conv_ok s ks stride rs ch -> one_cell bs ->
     conv_with post bm (of_fun s f) (of_fun ks h) (of_fun bs fb) stride (of_fun rs g) ch
     = Done (of_fun rs (conv_result post ks stride f h (bias_value bs fb) g ch), Ok tt))
    by (intros; apply conv_with_of_fun; assumption).
  assert (Inv : forall r', conv_with post bm (of_fun s f) (of_fun ks h) (of_fun bs fb) stride (of_fun rs g) ch = Done (r', Ok tt) ->
     check_convolution_dimensions bm s ks stride rs ch = Done (Ok tt) /\ one_cell bs).
  { intros r' E. unfold conv_with, get_shape in E. cbn [tshape of_fun] in E.
    apply bind_done in E. destruct E as (c & Ec & E). destruct c as [[]|]; [|discriminate].
    split; [exact Ec|]. apply one_cell_guard.
    destruct ((1 <? di bs) || (1 <? dj bs) || (1 <? dk bs)); [discriminate|reflexivity]. }
  repeat apply conj.
  - intros P B. eexists. apply OkCase; assumption.
  - intros r' E. destruct (Inv r' E) as (C & B).
    assert (Ck : dk s = dk ks /\ ch < dk rs).
    { destruct bm.
      - apply check_conv_debug_sound in C. destruct C as (? & _ & _ & ?). auto.
      - apply check_conv_release_iff in C; [|apply u32_shape_alloc; assumption|apply u32_shape_alloc; assumption].
        destruct C as (? & _ & _ & ?). auto. }
    split; [|split; [exact B|exact Ck]].
    assert (D : conv_ok s ks stride rs ch \/ ~ conv_ok s ks stride rs ch).
    { unfold conv_ok, tiles. repeat apply Decidable.dec_and; unfold Decidable.decidable; lia. }
    destruct D as [P|P].
    + rewrite OkCase in E by assumption. injection E as <-. apply holds_of_fun; assumption.
    + destruct bm; [exfalso; apply P; apply check_conv_debug_sound; exact C|].
      unfold conv_with, get_shape in E. cbn [tshape of_fun] in E. rewrite C in E. cbn [bind] in E.
      apply one_cell_guard in B. rewrite B in E. fold (of_fun s f) (of_fun ks h) (of_fun bs fb) (of_fun rs g) in E.
      rewrite get_bias in E by assumption. cbn [bind] in E.
      apply bind_done in E. destruct E as (r1 & L & E). injection E as <-.
      assert (Em : (di rs = 0 \/ dj rs = 0) \/ cells ks = []).
      { apply release_wrapped_empty with (s := s) (stride := stride) (ch := ch) (r0 := of_fun rs g) (r1 := r1) (f := f) (h := h)
          (body := fun i j r => v <- conv_window Release (of_fun s f) (of_fun ks h) stride i j ;;
                       id <- get_data_index Release r (mkIndex i j ch) ;;
                       data_set r id (post (fadd v (bias_value bs fb)))).
        - assumption.
        - assumption.
        - apply u32_shape_alloc; assumption.
        - exact C.
        - exact P.
        - intros i j a b Eb. apply bind_done in Eb. destruct Eb as (v & Ev & _). eauto.
        - exact L. }
      destruct Em as [Er|Ec].
      * assert (Same : r1 = of_fun rs g).
        { destruct Er as [Er|Er].
          - unfold for_ at 1 in L. rewrite forM_const in L; [congruence|]. intros j s0. rewrite Er. reflexivity.
          - rewrite Er in L. change (Done (of_fun rs g) = Done r1) in L. congruence. }
        subst r1. apply holds_iff. split; [assumption|]. apply of_fun_ext.
        intros i j k (Hi & Hj & Hk). destruct Er; lia.
      * assert (W : for_ 0 (dj rs) (fun j => for_ 0 (di rs) (fun i r0 =>
                       v <- conv_window Release (of_fun s f) (of_fun ks h) stride i j ;;
                       id <- get_data_index Release r0 (mkIndex i j ch) ;;
                       data_set r0 id (post (fadd v (bias_value bs fb))))) (of_fun rs g)
                  = Done (of_fun rs (fun i j k => if k =? ch then post (fadd fzero (bias_value bs fb)) else g i j k))).
        { apply channel_write with (v := fun i j => post (fadd fzero (bias_value bs fb))); [apply Ck|].
          intros i j f' Hi Hj.
          assert (Dn : exists v, conv_window Release (of_fun s f) (of_fun ks h) stride i j = Done v).
          { unfold for_ in L. rewrite Nrange_upto in L.
            destruct (forM_done_body _ _ _ _ j L) as (s1 & s2 & E1); [apply in_upto; exact Hj|]. rewrite Nrange_upto in E1.
            destruct (forM_done_body _ _ _ _ i E1) as (s3 & s4 & E2); [apply in_upto; exact Hi|].
            apply bind_done in E2. destruct E2 as (v & Ev & _). eauto. }
          destruct Dn as (v & Ev). rewrite Ev. apply conv_window_nil in Ev; [|exact Ec]. subst v. cbn [bind].
          assert (Hin : in_shape rs i j ch) by (repeat split; try assumption; apply Ck).
          rewrite data_index_of_fun by assumption. cbn [bind]. apply data_set_of_fun. assumption. }
        rewrite W in L. injection L as <-. apply holds_iff. split; [assumption|]. apply of_fun_ext.
        intros i j k _. unfold conv_result, conv_terms. rewrite Ec. reflexivity.
  - intros r' e E. unfold conv_with, get_shape in E. cbn [tshape of_fun] in E.
    apply bind_done in E. destruct E as (c & Ec & E). destruct c as [[]|]; [|congruence].
    destruct ((1 <? di bs) || (1 <? dj bs) || (1 <? dk bs)); [congruence|]. res_inv. discriminate.
  - intros G r' E Pi Pj. destruct (Inv r' E) as (C & B). destruct bm; [apply check_conv_debug_sound; exact C|].
    destruct G as [G|(Gi & Gj)]; [discriminate|].
    apply check_conv_release_iff in C; [|apply u32_shape_alloc; assumption|apply u32_shape_alloc; assumption].
    destruct C as (Ck & Wi & Wj & Cc). split; [exact Ck|].
    pose proof (u32_shape_alloc s ltac:(assumption)) as (U1 & U2 & U3).
    split; [apply wrapped_tiles_fit; try assumption; lia|].
    split; [apply wrapped_tiles_fit; try assumption; lia|exact Cc].
Qed.

(** No panic when the kernel fits and the stride is not zero (and the extent does not overflow). *)
Lemma conv_with_no_panic post bm image kernel bias r s ks bs rs f h fb g stride ch :
  holds bm image s f -> holds bm kernel ks h -> holds bm bias bs fb -> holds bm r rs g ->
  stride <> 0 -> kernel_fits s ks -> ~ extent_edge (di s) (di ks) stride -> ~ extent_edge (dj s) (dj ks) stride ->
  exists r' e, conv_with post bm image kernel bias stride r ch = Done (r', e) /\ wf r' /\ tshape r' = rs.
Proof.
  intros Hi Hk Hb Hr Hs (Fi & Fj) Ei Ej. holds_start.
  pose proof (u32_shape_alloc s ltac:(assumption)) as (U1 & U2 & U3).
  assert (Bi : (di s - di ks) / stride + 1 < W32).
  { destruct (N.lt_ge_cases ((di s - di ks) / stride + 1) W32); [assumption|]. exfalso. apply Ei. apply extent_overflow; assumption. }
  assert (Bj : (dj s - dj ks) / stride + 1 < W32).
  { destruct (N.lt_ge_cases ((dj s - dj ks) / stride + 1) W32); [assumption|]. exfalso. apply Ej. apply extent_overflow; assumption. }
  destruct (check_conv_spec bm s ks stride rs ch) as (c & Hc & Hiff); try assumption.
  destruct c as [[]|e].
  - assert (P : conv_ok s ks stride rs ch) by (apply Hiff; reflexivity).
    destruct ((1 <? di bs) || (1 <? dj bs) || (1 <? dk bs)) eqn:B.
    + do 2 eexists. split; [unfold conv_with, get_shape; cbn [tshape of_fun]; rewrite Hc; cbn [bind]; rewrite B; reflexivity|].
      split; [apply wf_of_fun; assumption|reflexivity].
    + do 2 eexists. split; [apply conv_with_of_fun; try assumption; apply one_cell_guard; exact B|].
      split; [apply wf_of_fun; assumption|reflexivity].
  - do 2 eexists. split; [unfold conv_with, get_shape; cbn [tshape of_fun]; rewrite Hc; reflexivity|].
    split; [apply wf_of_fun; assumption|reflexivity].
Qed.

(** ** C17 *)
Lemma kgrad_terms_depth1 rs stride (f g : N -> N -> N -> F) l m n :
  dk rs = 1 ->
  kgrad_terms rs stride f g l m n
  = map (fun '(i, j) => fmul (f (l + i * stride) (m + j * stride) n) (g i j 0)) (channel_cells rs).
Proof.
  intros E. unfold kgrad_terms, channel_cells, cells. rewrite E. change (upto 1) with [0]. cbn [flat_map].
  rewrite app_nil_r. induction (upto (dj rs)) as [|j l' IH]; simpl; [reflexivity|].
  rewrite !map_app, IH, !map_map. reflexivity.
Qed.

Lemma backprop_kernel_spec bm incoming image kg rs s ks g f h stride ch :
  holds bm incoming rs g -> holds bm image s f -> holds bm kg ks h -> conv_ok s ks stride rs ch ->
  exists kg', convolution_backprop_kernel bm incoming image stride ch kg = Done (kg', Ok tt)
    /\ holds bm kg' ks (fun l m n =>
         sum (map (fun '(i, j, k) => fmul (f (l + i * stride) (m + j * stride) n) (g i j k)) (cells rs))).
Proof.
  intros Hg Hi Hk P. holds_start. eexists. split.
  - apply backprop_kernel_of_fun; try assumption. apply check_conv_complete; [|exact P].
    apply u32_shape_alloc; assumption.
  - apply holds_of_fun; assumption.
Qed.

Lemma backprop_kernel_depth1 bm incoming image kg rs s ks g f h stride :
  holds bm incoming rs g -> holds bm image s f -> holds bm kg ks h -> conv_ok s ks stride rs 0 -> dk rs = 1 ->
  exists kg', convolution_backprop_kernel bm incoming image stride 0 kg = Done (kg', Ok tt)
    /\ holds bm kg' ks (fun l m n =>
         sum (map (fun '(i, j) => fmul (f (l + i * stride) (m + j * stride) n) (g i j 0)) (channel_cells rs))).
Proof.
  intros Hg Hi Hk P E. destruct (backprop_kernel_spec bm incoming image kg rs s ks g f h stride 0 Hg Hi Hk P) as (kg' & R & H).
  exists kg'. split; [exact R|]. apply holds_iff in H. destruct H as (A & ->). apply holds_iff. split; [exact A|].
  apply of_fun_ext. intros l m n _.
  change (sum (kgrad_terms rs stride f g l m n) = sum (map (fun '(i, j) => fmul (f (l + i * stride) (m + j * stride) n) (g i j 0)) (channel_cells rs))).
  rewrite kgrad_terms_depth1 by exact E. reflexivity.
Qed.

End Conv.
