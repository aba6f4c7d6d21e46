(** * C03 (histories of tensor operations), C16 at any stride, C51 (random fills) *)
From Coq Require Import Reals.
From Flocq Require Import Core.
From Verif Require Import Base Arith Helper Tensor Convolution Spec SpecOps SpecError Float32 Rand ProofsOutgoing ProofsOps ProofsRand ProofsRandValue Demo.

(** ** C03 *)
(** Where the property is weakened ([legal]): [Tensor::new] and the raw index only take what fits in u32, the
    random distributions get valid parameters, the tile count of a window fits in u32, and the outgoing gradient
    of a convolution gets a kernel no larger than the gradient and extents below 2^31. *)
Theorem C03_history_partial : forall F (AR : Arith F) bm (h : list (tensor_op F)) (p : list (tensor F)),
  Forall wf p -> legal_history h (map tshape p) ->
  exists p', run_ops bm h p = Done p' /\ Forall wf p' /\ map tshape p' = map tshape p ++ flat_map created h.
Proof. exact @history_from_pool. Qed.
Print Assumptions C03_history_partial.

Theorem C03_from_nothing_partial : forall F (AR : Arith F) bm (h : list (tensor_op F)), legal_history h [] ->
  exists p, run_ops bm h [] = Done p /\ Forall wf p /\ map tshape p = flat_map created h.
Proof. exact @history_from_nothing. Qed.
Print Assumptions C03_from_nothing_partial.

(** Without those conditions: the outgoing gradient of a stride-1 convolution whose kernel fits the image, *)
Theorem C03_outgoing_gradient_refuted : forall bm,
  let p := [tn (mkShape 2 1 1) [1;1]%Z; tn (mkShape 5 1 1) [0;0;0;0;0]%Z; tn (mkShape 4 1 1) [1;1;1;1]%Z] in
  Forall wf p /\ windows_fit (mkShape 5 1 1) (mkShape 4 1 1) 1
  /\ run_op bm (OConvOutgoing 0 [2] 1 1) p = Panic PBounds.
Proof.
  intros bm p. split; [repeat constructor; demo_wf|]. split.
  - split; [discriminate|]. split; [split; discriminate|]. split; intros (H & _); discriminate H.
  - destruct bm; vm_compute; reflexivity.
Qed.
Print Assumptions C03_outgoing_gradient_refuted.

(** the extents of a window of extent 0 on the longest axis, *)
Theorem C03_extent_edge_refuted :
  let im := mkShape 4294967295 1 1 in let kernel := mkShape 0 1 1 in
  allocatable im /\ kernel_fits im kernel /\ run_op Debug (OFitDim im kernel 1 : tensor_op f32) [] = Panic POverflow.
Proof. repeat split; try reflexivity; discriminate. Qed.
Print Assumptions C03_extent_edge_refuted.

(** and the raw index of a position outside the tensor, in a debug build. *)
Theorem C03_raw_index_refuted :
  let p := [tn (mkShape 2 2 1) [1;2;3;4]%Z] in
  Forall wf p /\ run_op Debug (OIndex 0 (mkIndex 0 4294967295 0)) p = Panic POverflow.
Proof. split; [repeat constructor; demo_wf|]. vm_compute. reflexivity. Qed.
Print Assumptions C03_raw_index_refuted.

Definition demo_history : list (tensor_op f32) :=
  [ONew (mkShape 2 2 1); ONew (mkShape 2 2 1); ONew (mkShape 1 1 1); OEmpty;
   OVec 0 (map f32_of_Z [1; -2; 3; -4]%Z); OTranspose 0 1; OMatMul 0 1 0; OAddSelf 0 1; ORelu 1 0;
   OMaxPool 1 (mkShape 2 2 1) 2 2; OConv 1 0 2 1 3 0; OConvOutgoing 3 [2] 1 2; OScaleSelf 1 (f32_of_Z 3);
   OSet 1 (mkIndex 7 7 7) (f32_of_Z 9); OAdd 0 2 1; OVec 2 []].

Example C03_case : legal_history demo_history []
  /\ match run_ops Debug demo_history [] with
     | Done p => map tbits p = [ints [1;1;0;0]%Z; ints [3;9;0;0]%Z; ints [21]%Z; ints [7]%Z]
     | Panic _ => False
     end.
Proof.
  split; [|vm_compute; reflexivity].
  repeat split; try reflexivity; try discriminate; try (intros (_ & H & _); discriminate H);
    match goal with H : In _ _ |- _ => destruct H as [<-|[]] | _ => idtac end;
    try reflexivity; try discriminate; intros (_ & H & _); discriminate H.
Qed.

(** ** C16, for every stride *)
(** What the function computes whenever the kernel is no larger than the gradient: the sum over the windows it
    visits. Missing from the full statement: the windows covering a position but not visited. *)
Theorem C16_visited_partial :
  forall F (AR : Arith F) bm (incoming outgoing : tensor F) (kernels : list (tensor F)) s rs ks g h o stride,
  holds bm incoming rs g -> holds bm outgoing s o -> all_hold bm kernels ks h -> len kernels = dk rs ->
  (forall k, k < dk rs -> conv_ok s ks stride rs k) -> outgoing_fits rs ks s stride ->
  exists og, convolution_backprop_outgoing_gradient bm incoming kernels stride outgoing = Done (og, Ok tt)
    /\ holds bm og s (fun a b c => sum (visited_products rs (fun _ => ks) stride h g a b c)).
Proof. exact @outgoing_visited. Qed.
Print Assumptions C16_visited_partial.

(** A stride-2 case: the four windows are disjoint; the first in each direction only reaches its first position. *)
Example C16_visited_case :
  let incoming := tn (mkShape 2 2 1) [1;10;100;1000]%Z in
  let outgoing := tn (mkShape 4 4 1) [9;9;9;9;9;9;9;9;9;9;9;9;9;9;9;9]%Z in
  let kernel := tn (mkShape 2 2 1) [2;3;4;5]%Z in
  wf incoming /\ wf outgoing /\ wf kernel /\ conv_ok (tshape outgoing) (tshape kernel) 2 (tshape incoming) 0
  /\ outgoing_fits (tshape incoming) (tshape kernel) (tshape outgoing) 2
  /\ out2 (convolution_backprop_outgoing_gradient Debug incoming [kernel] 2 outgoing)
     = Some (ints [2;0;20;30; 0;0;0;0; 200;0;2000;3000; 400;0;4000;5000]%Z)
  /\ map (fun a => visited 2 2 2 a) [0;1;2;3] = [[0];[];[1];[1]] /\ map (fun a => covering 2 2 2 a) [0;1;2;3] = [[0];[0];[1];[1]].
Proof.
  split; [demo_wf|]. split; [demo_wf|]. split; [demo_wf|].
  split; [repeat split; try reflexivity; discriminate|]. split; [repeat split; discriminate|].
  split; [|split]; vm_compute; reflexivity.
Qed.

(** At every stride above 1 the first window covers the last position of the kernel but is not visited there. *)
Theorem C16_first_window_refuted : forall n e stride, 0 < n -> 0 < e -> 1 < stride ->
  In 0 (covering n e stride (e - 1)) /\ ~ In 0 (visited n e stride (e - 1)).
Proof. exact first_window_unvisited. Qed.
Print Assumptions C16_first_window_refuted.

(** So along an axis of m positions the function visits every covering window exactly at stride 1 with no more windows than the
    kernel is long. *)
Theorem C16_exactly_when : forall m n e stride, tiles m e stride n -> 0 < e ->
  ((forall a, a < m -> visited n e stride a = covering n e stride a) <-> stride = 1 /\ n <= e).
Proof. exact visited_all_iff. Qed.
Print Assumptions C16_exactly_when.

Example C16_exactly_case : tiles 5 3 1 3 /\ tiles 6 3 1 4 /\ tiles 5 3 2 2
  /\ map (visited 4 3 1) [3;5] = [[1;2]; []] /\ map (covering 4 3 1) [3;5] = [[1;2;3]; [3]].
Proof. repeat split; try reflexivity; discriminate. Qed.

(** ** C51 *)
(** The uniform distribution itself is modelled (rand 0.8.5, Rand.v); the generator's words are arbitrary. Each element is drawn from its
    own word: larger words give larger values, words whose upper 23 bits are zero give [low]. *)
Theorem C51_uniform : forall bm e (t : tensor f32) (low high : f32) (words : nat -> N),
  (forall n, (words n < W32)%N) ->
  match fill_with_uniform_words bm e t low high words with
  | Done t' => (fin low = true /\ fin high = true /\ (real low <= real high)%R)
               /\ strides t' = strides t /\ tshape t' = tshape t /\ length (data t') = length (data t)
               /\ (forall x, In x (data t') -> fin x = true /\ (real low <= real x <= real high)%R)
               /\ (forall a b x y, nth_error (data t') a = Some x -> nth_error (data t') b = Some y -> (words a <= words b)%N -> (real x <= real y)%R)
               /\ (forall a x, nth_error (data t') a = Some x -> (words a < 512)%N -> real x = real low)
  | Panic p => p = PAssert /\ (fin low = false \/ fin high = false \/ (real high < real low)%R
                               \/ fin (f32_div e (f32_sub e high low) (max_rand e)) = false)
  end.
Proof. exact fill_uniform_spec. Qed.
Print Assumptions C51_uniform.

(** Which values: the upper 23 bits of the word, as a fraction of 2^23, times a scale plus [low]. The scale is the largest one, from the
    quotient of the interval's length by the largest fraction downwards, with which the largest fraction stays at or below [high]. *)
Theorem C51_values : forall bm e (t t' : tensor f32) (low high : f32) (words : nat -> N), (forall n, (words n < W32)%N) ->
  fill_with_uniform_words bm e t low high words = Done t' ->
  let scale := f32_div e (f32_sub e high low) (max_rand e) in
  let rnd := round radix2 (FLT_exp (-149) 24) ZnearestE in
  let value s v := rnd (rnd (v * real s) + real low)%R in
  fin scale = true /\ exists s, fin s = true /\ (0 <= real s <= real scale)%R
    /\ (forall n x, nth_error (data t') n = Some x -> real x = value s (IZR (Z.of_N (words n / 512)) / 8388608)%R)
    /\ (value s (8388607 / 8388608) <= real high)%R
    /\ forall s', fin s' = true -> (real s < real s' <= real scale)%R -> (real high < value s' (8388607 / 8388608))%R.
Proof. exact fill_uniform_values. Qed.
Print Assumptions C51_values.

Theorem C51_gaussian : forall F (t : tensor F) params_ok (sample : nat -> F),
  match fill_with_gaussian params_ok sample t with
  | Done t' => params_ok = true /\ strides t' = strides t /\ tshape t' = tshape t
               /\ length (data t') = length (data t)
               /\ forall n, (n < length (data t))%nat -> nth_error (data t') n = Some (sample n)
  | Panic p => params_ok = false /\ p = PUnwrap
  end.
Proof. exact @fill_gaussian_spec. Qed.
Print Assumptions C51_gaussian.

(** For [C51_uniform] and [C51_values]: the words 0, 2^31 and 2^32 - 1 give -1, 1 + 2^-22 and 3 on the interval from -1 to 3; reversed bounds panic. *)
Example C51_case :
  let t := tn (mkShape 3 1 1) [7;7;7]%Z in
  let words n := match n with O => 0 | S O => 2147483648 | _ => 4294967295 end in
  out1 (fill_with_uniform_words Debug demo_env t (f32_of_Z (-1)) (f32_of_Z 3) words)
  = Some [bits (f32_of_Z (-1)); 1065353218%Z; bits (f32_of_Z 3)]
  /\ fill_with_uniform_words Release demo_env t (f32_of_Z 3) (f32_of_Z (-1)) words = Panic PAssert
  /\ out1 (fill_with_gaussian true (fun n => f32_of_Z (Z.of_nat n)) t) = Some (ints [0;1;2]%Z).
Proof. split; [|split]; vm_compute; reflexivity. Qed.
