(** * C58: where a debug build does not panic, a release build does the same *)
From Coq Require Import ZifyBool ZifyNat ZifyN.
From Verif Require Import Base Arith Helper Tensor Convolution Network Bincode Serial SpecOps SpecNet.

(** [b] returns whatever [a] returns. *)
Definition le {A} (a b : res A) : Prop := match a with Done v => b = Done v | Panic _ => True end.

Lemma le_refl {A} (a : res A) : le a a.
Proof. destruct a; [reflexivity|exact I]. Qed.

Lemma le_bind {A B} (a b : res A) (f g : A -> res B) : le a b -> (forall x, le (f x) (g x)) -> le (bind a f) (bind b g).
Proof. intros H1 H2. destruct a; cbn in *; [subst; apply H2|exact I]. Qed.

Lemma le_forM {A S} (l : list A) (f g : A -> S -> res S) s : (forall x s, le (f x s) (g x s)) -> le (forM l f s) (forM l g s).
Proof. intros H. revert s. induction l as [|x l IH]; intros s; [apply le_refl|]. cbn [forM]. apply le_bind; [apply H|exact IH]. Qed.

Lemma le_for {S} lo hi (f g : N -> S -> res S) s : (forall x s, le (f x s) (g x s)) -> le (for_ lo hi f s) (for_ lo hi g s).
Proof. apply le_forM. Qed.

Lemma le_tryM {A S} (l : list A) (f g : A -> S -> res (S * result unit)) s :
  (forall x s, le (f x s) (g x s)) -> le (tryM l f s) (tryM l g s).
Proof.
  intros H. revert s. induction l as [|x l IH]; intros s; [apply le_refl|]. cbn [tryM]. apply le_bind; [apply H|].
  intros (s' & [|]); [apply IH|apply le_refl].
Qed.

Lemma le_done {A} (a b : res A) v : le a b -> a = Done v -> b = Done v.
Proof. intros H E. rewrite E in H. exact H. Qed.

Lemma le_add x y : le (u32_add Debug x y) (u32_add Release x y).
Proof. unfold u32_add. destruct (x + y <? W32); [reflexivity|exact I]. Qed.
Lemma le_sub x y : le (u32_sub Debug x y) (u32_sub Release x y).
Proof. unfold u32_sub. destruct (y <=? x); [reflexivity|exact I]. Qed.
Lemma le_mul x y : le (u32_mul Debug x y) (u32_mul Release x y).
Proof. unfold u32_mul. destruct (x * y <? W32); [reflexivity|exact I]. Qed.
Lemma le_i32_fit x : le (i32_fit Debug x) (i32_fit Release x).
Proof. unfold i32_fit. destruct ((I32_MIN <=? x) && (x <=? I32_MAX))%Z; [reflexivity|exact I]. Qed.

Create HintDb build.
#[local] Hint Resolve le_add le_sub le_mul le_i32_fit : build.

Ltac step :=
  match goal with
  | |- le ?a ?a => apply le_refl
  | |- _ => solve [auto 1 with build nocore]
  | |- le (bind _ _) (bind _ _) => apply le_bind; [|intros]
  | |- le (forM _ _ _) (forM _ _ _) => apply le_forM; intros
  | |- le (for_ _ _ _ _) (for_ _ _ _ _) => apply le_for; intros
  | |- le (tryM _ _ _) (tryM _ _ _) => apply le_tryM; intros
  | |- le (for_kji _ _ _) (for_kji _ _ _) => unfold for_kji
  | |- le (match ?x with _ => _ end) (match ?x with _ => _ end) => destruct x
  | |- le ((match ?x with _ => _ end) _) _ => destruct x
  | |- le _ _ => progress cbv beta
  end.
Ltac go := intros; cbv zeta; repeat step.

Section Tensors.
Context {F : Type} {AR : Arith F}.
Notation T := (tensor F).

Lemma b_total_size s : le (total_size Debug s) (total_size Release s).
Proof. unfold total_size. go. Qed.
Lemma b_stride_mul s x : le (stride_mul Debug s x) (stride_mul Release s x).
Proof. unfold stride_mul. go. Qed.
Lemma b_stride_of_shape s : le (stride_of_shape Debug s) (stride_of_shape Release s).
Proof. unfold stride_of_shape. go. Qed.
#[local] Hint Resolve b_total_size b_stride_mul b_stride_of_shape : build.

Lemma b_new s : le (@tensor_new Debug F AR s) (tensor_new Release s).
Proof. unfold tensor_new. go. Qed.
Lemma b_empty : le (@tensor_empty Debug F AR) (tensor_empty Release).
Proof. apply b_new. Qed.
Lemma b_total_items (t : T) : le (total_items Debug t) (total_items Release t).
Proof. apply b_total_size. Qed.
Lemma b_data_index (t : T) x : le (get_data_index Debug t x) (get_data_index Release t x).
Proof. apply b_stride_mul. Qed.
#[local] Hint Resolve b_new b_empty b_total_items b_data_index : build.
Lemma b_get_item (t : T) x : le (get_item Debug t x) (get_item Release t x).
Proof. unfold get_item. go. Qed.
Lemma b_set_item (t : T) x v : le (set_item Debug t x v) (set_item Release t x v).
Proof. unfold set_item. go. Qed.
Lemma b_fill_with_vec (t : T) d : le (fill_with_vec Debug t d) (fill_with_vec Release t d).
Proof. unfold fill_with_vec. go. Qed.
Lemma b_add_from_index_list (a b : T) l : le (add_from_index_list Debug a b l) (add_from_index_list Release a b l).
Proof. unfold add_from_index_list. go. Qed.
Lemma b_transpose_ij (a b : T) : le (transpose_ij Debug a b) (transpose_ij Release a b).
Proof. unfold transpose_ij. go. Qed.
Lemma b_dot_loop n (a b : T) f g : le (dot_loop Debug n a b f g) (dot_loop Release n a b f g).
Proof. unfold dot_loop. go. Qed.
#[local] Hint Resolve b_get_item b_set_item b_fill_with_vec b_add_from_index_list b_transpose_ij b_dot_loop : build.
Lemma b_mm_first (a b r : T) : le (matrix_multiply_transpose_first Debug a b r) (matrix_multiply_transpose_first Release a b r).
Proof. unfold matrix_multiply_transpose_first. go. Qed.
Lemma b_mm_second (a b r : T) : le (matrix_multiply_transpose_second Debug a b r) (matrix_multiply_transpose_second Release a b r).
Proof. unfold matrix_multiply_transpose_second. go. Qed.
Lemma b_mm (a b r : T) : le (matrix_multiply Debug a b r) (matrix_multiply Release a b r).
Proof. unfold matrix_multiply. go. Qed.
Lemma b_mm_add_relu (x w b r : T) : le (matrix_multiply_add_relu Debug x w b r) (matrix_multiply_add_relu Release x w b r).
Proof. unfold matrix_multiply_add_relu. go. Qed.
Lemma b_stride_fit im k s : le (does_kernel_stride_fit_image Debug im k s) (does_kernel_stride_fit_image Release im k s).
Proof. unfold does_kernel_stride_fit_image. go. Qed.
Lemma b_dim_fit im k s : le (get_convolution_dim_fit Debug im k s) (get_convolution_dim_fit Release im k s).
Proof. unfold get_convolution_dim_fit. go. Qed.
Lemma b_check_pool im k s r : le (check_max_pooling_dimensions Debug im k s r) (check_max_pooling_dimensions Release im k s r).
Proof. unfold check_max_pooling_dimensions. go. Qed.
Lemma b_pool_index s i j k ii jj : le (pool_index Debug s i j k ii jj) (pool_index Release s i j k ii jj).
Proof. unfold pool_index. go. Qed.
#[local] Hint Resolve b_mm_first b_mm_second b_mm b_mm_add_relu b_stride_fit b_dim_fit b_check_pool b_pool_index : build.
Lemma b_max_pool (im : T) m s r : le (max_pool Debug im m s r) (max_pool Release im m s r).
Proof. unfold max_pool. go. Qed.
Lemma b_max_pool_track (im : T) m s r o : le (max_pool_track_origin Debug im m s r o) (max_pool_track_origin Release im m s r o).
Proof. unfold max_pool_track_origin. go. Qed.

Lemma b_check_conv im k s r ch : le (check_convolution_dimensions Debug im k s r ch) (check_convolution_dimensions Release im k s r ch).
Proof. unfold check_convolution_dimensions. go. Qed.
Lemma b_conv_window (im k : T) s i j : le (conv_window Debug im k s i j) (conv_window Release im k s i j).
Proof. unfold conv_window. go. Qed.
Lemma b_range a kd s : le (backprop_range Debug a kd s) (backprop_range Release a kd s).
Proof. unfold backprop_range, i32_sub, i32_add. go. Qed.
#[local] Hint Resolve b_max_pool b_max_pool_track b_check_conv b_conv_window b_range : build.
Lemma b_conv (im k b : T) s r ch : le (convolution_bias Debug im k b s r ch) (convolution_bias Release im k b s r ch).
Proof. unfold convolution_bias. go. Qed.
Lemma b_conv_relu (im k b : T) s r ch : le (convolution_bias_relu Debug im k b s r ch) (convolution_bias_relu Release im k b s r ch).
Proof. unfold convolution_bias_relu. go. Qed.
Lemma b_conv_outgoing (g : T) ks s og :
  le (convolution_backprop_outgoing_gradient Debug g ks s og) (convolution_backprop_outgoing_gradient Release g ks s og).
Proof. unfold convolution_backprop_outgoing_gradient. go. Qed.
Lemma b_conv_kernel (g im : T) s ch r : le (convolution_backprop_kernel Debug g im s ch r) (convolution_backprop_kernel Release g im s ch r).
Proof. unfold convolution_backprop_kernel. go. Qed.
#[local] Hint Resolve b_conv b_conv_relu b_conv_outgoing b_conv_kernel : build.

Lemma b_op (o : tensor_op F) p : le (SpecOps.run_op Debug o p) (SpecOps.run_op Release o p).
Proof. destruct o; cbn [SpecOps.run_op]; go. Qed.
Lemma b_ops (h : list (tensor_op F)) p : le (run_ops Debug h p) (run_ops Release h p).
Proof. unfold run_ops. apply le_forM. apply b_op. Qed.

(** ** Layers *)
Lemma b_fc_update (l : fc_layer F) : le (fc_update Debug l) (fc_update Release l).
Proof. unfold fc_update. go. Qed.
Lemma b_fc_empty : le (@fc_empty Debug F AR) (fc_empty Release).
Proof. unfold fc_empty. go. Qed.
#[local] Hint Resolve b_fc_update b_fc_empty : build.
Lemma b_fc_fill (l : fc_layer F) w b name : le (fc_fill_from_state Debug l w b name) (fc_fill_from_state Release l w b name).
Proof. unfold fc_fill_from_state. go. Qed.
#[local] Hint Resolve b_fc_fill : build.
Lemma b_fc_new i o name : le (@fc_new Debug F AR i o name) (fc_new Release i o name).
Proof. unfold fc_new. go. Qed.
Lemma b_fc_forward (l : fc_layer F) x y : le (fc_forward Debug l x y) (fc_forward Release l x y).
Proof. unfold fc_forward. go. Qed.
Lemma b_fc_backward (l : fc_layer F) x y g og : le (fc_backward Debug l x y g og) (fc_backward Release l x y g og).
Proof. unfold fc_backward. go. Qed.

Lemma b_cv_update (l : conv_layer F) : le (cv_update Debug l) (cv_update Release l).
Proof. unfold cv_update. go. Qed.
Lemma b_cv_empty : le (@cv_empty Debug F AR) (cv_empty Release).
Proof. unfold cv_empty. go. Qed.
#[local] Hint Resolve b_cv_update b_cv_empty : build.
Lemma b_cv_fill (l : conv_layer F) ks bs ins s name : le (cv_fill_from_state Debug l ks bs ins s name) (cv_fill_from_state Release l ks bs ins s name).
Proof. unfold cv_fill_from_state. go. Qed.
#[local] Hint Resolve b_cv_fill : build.
Lemma b_cv_new k i s o name : le (@cv_new Debug F AR k i s o name) (cv_new Release k i s o name).
Proof. unfold cv_new. go. Qed.
Lemma b_cv_forward (l : conv_layer F) x y : le (cv_forward Debug l x y) (cv_forward Release l x y).
Proof. unfold cv_forward. go. Qed.
Lemma b_cv_backward (l : conv_layer F) x y g og : le (cv_backward Debug l x y g og) (cv_backward Release l x y g og).
Proof. unfold cv_backward. go. Qed.

Lemma b_mp_update l : le (mp_update Debug l) (mp_update Release l).
Proof. unfold mp_update. go. Qed.
Lemma b_mp_fill l i m s name : le (mp_fill_from_state Debug l i m s name) (mp_fill_from_state Release l i m s name).
Proof. unfold mp_fill_from_state. go. Qed.
#[local] Hint Resolve b_mp_update b_mp_fill : build.
Lemma b_mp_new m i s name : le (mp_new Debug m i s name) (mp_new Release m i s name).
Proof. unfold mp_new. go. Qed.
Lemma b_mp_forward l (x y : T) : le (mp_forward Debug l x y) (mp_forward Release l x y).
Proof. unfold mp_forward. go. Qed.
Lemma b_mp_backward l (x y g og : T) : le (mp_backward Debug l x y g og) (mp_backward Release l x y g og).
Proof. unfold mp_backward. go. Qed.

Lemma b_sm_update (l : sm_layer F) : le (sm_update Debug l) (sm_update Release l).
Proof. unfold sm_update. go. Qed.
Lemma b_sm_empty : le (@sm_empty Debug F AR) (sm_empty Release).
Proof. unfold sm_empty. go. Qed.
#[local] Hint Resolve b_sm_update b_sm_empty : build.
Lemma b_sm_new s name : le (@sm_new Debug F AR s name) (sm_new Release s name).
Proof. unfold sm_new, sm_fill_from_state. go. Qed.
Lemma b_sm_backward (l : sm_layer F) x y g og : le (sm_backward Debug l x y g og) (sm_backward Release l x y g og).
Proof. unfold sm_backward. go. Qed.
#[local] Hint Resolve b_fc_forward b_fc_backward b_cv_forward b_cv_backward b_mp_forward b_mp_backward b_sm_backward : build.

Lemma b_forward (l : layer F) x y : le (forward Debug l x y) (forward Release l x y).
Proof. destruct l; cbn [forward]; unfold lift3; go. Qed.
Lemma b_backward (l : layer F) x y g og : le (backward Debug l x y g og) (backward Release l x y g og).
Proof. destruct l; cbn [backward]; unfold lift3; go. Qed.
Lemma b_to_training (l : layer F) : le (switch_to_training Debug l) (switch_to_training Release l).
Proof.
  destruct l; cbn [switch_to_training]; unfold lift1, cv_switch_to_training, fc_switch_to_training, mp_switch_to_training, sm_switch_to_training; go.
Qed.
Lemma b_to_inference (l : layer F) : le (switch_to_inference Debug l) (switch_to_inference Release l).
Proof.
  destruct l; cbn [switch_to_inference]; unfold lift1, cv_switch_to_inference, fc_switch_to_inference, mp_switch_to_inference, sm_switch_to_inference; go.
Qed.
#[local] Hint Resolve b_forward b_backward b_to_training b_to_inference : build.

(** ** Networks *)
Lemma b_add_layer (n : network F) l : le (add_layer Debug n l) (add_layer Release n l).
Proof. unfold add_layer. go. Qed.
Lemma b_net_training (n : network F) : le (net_switch_to_training Debug n) (net_switch_to_training Release n).
Proof. unfold net_switch_to_training, map_layers. go. Qed.
Lemma b_net_inference (n : network F) : le (net_switch_to_inference Debug n) (net_switch_to_inference Release n).
Proof. unfold net_switch_to_inference, map_layers. go. Qed.
Lemma b_infer_step i (s : list (layer F) * list T) : le (infer_step Debug i s) (infer_step Release i s).
Proof. unfold infer_step. go. Qed.
Lemma b_backward_step states i (s : list (layer F) * list T) : le (backward_step Debug states i s) (backward_step Release states i s).
Proof. unfold backward_step. go. Qed.
#[local] Hint Resolve b_add_layer b_net_training b_net_inference b_infer_step b_backward_step : build.
Lemma b_infer (n : network F) x : le (infer Debug n x) (infer Release n x).
Proof. unfold infer. go. Qed.
Lemma b_net_backward (n : network F) g : le (net_backward Debug n g) (net_backward Release n g).
Proof. unfold net_backward. go. Qed.
#[local] Hint Resolve b_infer b_net_backward : build.

Context {BT : Bits F}.
Lemma b_fc_load (l : fc_layer F) s : le (fc_load Debug l s) (fc_load Release l s).
Proof. unfold fc_load, fc_load_data. go. Qed.
Lemma b_cv_load (l : conv_layer F) s : le (cv_load Debug l s) (cv_load Release l s).
Proof. unfold cv_load, cv_load_data. go. Qed.
Lemma b_mp_load l s : le (mp_load Debug l s) (mp_load Release l s).
Proof. unfold mp_load, mp_load_data. go. Qed.
#[local] Hint Resolve b_fc_load b_cv_load b_mp_load : build.
Lemma b_add_to_network s (n : network F) : le (add_to_network Debug s n) (add_to_network Release s n).
Proof. unfold add_to_network, load_and_add. go. Qed.
#[local] Hint Resolve b_add_to_network : build.
Lemma b_network_load (n : network F) fs name : le (network_load Debug n fs name) (network_load Release n fs name).
Proof. unfold network_load, populate_network. go. Qed.
#[local] Hint Resolve b_network_load : build.

Lemma b_run_op (n : network F) op : le (SpecNet.run_op Debug n op) (SpecNet.run_op Release n op).
Proof. destruct op; cbn [SpecNet.run_op]; go. Qed.

End Tensors.

(** ** Statements *)
Lemma build_ops F (AR : Arith F) (h : list (tensor_op F)) p p' : run_ops Debug h p = Done p' -> run_ops Release h p = Done p'.
Proof. apply le_done, b_ops. Qed.

Lemma build_net F (AR : Arith F) (BT : Bits F) (n : network F) op v : SpecNet.run_op Debug n op = Done v -> SpecNet.run_op Release n op = Done v.
Proof. apply le_done, b_run_op. Qed.

Lemma build_reachable F (AR : Arith F) (BT : Bits F) (n : network F) : reachable Debug n -> reachable Release n.
Proof. induction 1; [constructor|]. eapply reach_step; [eassumption|]. eapply build_net. eassumption. Qed.

Lemma build_layer F (AR : Arith F) (l : layer F) (x y g og : tensor F) :
  (forall v, forward Debug l x y = Done v -> forward Release l x y = Done v)
  /\ (forall v, backward Debug l x y g og = Done v -> backward Release l x y g og = Done v)
  /\ (forall v, switch_to_training Debug l = Done v -> switch_to_training Release l = Done v)
  /\ (forall v, switch_to_inference Debug l = Done v -> switch_to_inference Release l = Done v).
Proof.
  split; [|split; [|split]]; intros v; apply le_done;
    [apply b_forward|apply b_backward|apply b_to_training|apply b_to_inference].
Qed.

Lemma build_queries F (AR : Arith F) (t r : tensor F) (x : index) (im k : shape) (stride : N) (rs : shape) (ch : N) (d : list F) l :
  (forall v, get_item Debug t x = Done v -> get_item Release t x = Done v)
  /\ (forall v, get_data_index Debug t x = Done v -> get_data_index Release t x = Done v)
  /\ (forall v, total_items Debug t = Done v -> total_items Release t = Done v)
  /\ (forall v, fill_with_vec Debug t d = Done v -> fill_with_vec Release t d = Done v)
  /\ (forall v, max_pool_track_origin Debug t im stride r l = Done v -> max_pool_track_origin Release t im stride r l = Done v)
  /\ (forall v, does_kernel_stride_fit_image Debug im k stride = Done v -> does_kernel_stride_fit_image Release im k stride = Done v)
  /\ (forall v, get_convolution_dim_fit Debug im k stride = Done v -> get_convolution_dim_fit Release im k stride = Done v)
  /\ (forall v, check_max_pooling_dimensions Debug im k stride rs = Done v -> check_max_pooling_dimensions Release im k stride rs = Done v)
  /\ (forall v, check_convolution_dimensions Debug im k stride rs ch = Done v -> check_convolution_dimensions Release im k stride rs ch = Done v).
Proof.
  repeat split; intros v; apply le_done;
    auto using b_get_item, b_data_index, b_total_items, b_fill_with_vec, b_max_pool_track, b_stride_fit, b_dim_fit, b_check_pool, b_check_conv.
Qed.

Lemma build_constructors F (AR : Arith F) (i o stride outs : N) (a b : shape) (name : string) :
  (forall v, @fc_new Debug F AR i o name = Done v -> fc_new Release i o name = Done v)
  /\ (forall v, @cv_new Debug F AR a b stride outs name = Done v -> cv_new Release a b stride outs name = Done v)
  /\ (forall v, mp_new Debug a b stride name = Done v -> mp_new Release a b stride name = Done v)
  /\ (forall v, @sm_new Debug F AR a name = Done v -> sm_new Release a name = Done v).
Proof. repeat split; intros v; apply le_done; auto using b_fc_new, b_cv_new, b_mp_new, b_sm_new. Qed.
