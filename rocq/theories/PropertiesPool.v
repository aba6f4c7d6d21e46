(** * C18, C19: max pooling *)
From Verif Require Import Base Arith Helper Tensor Float32 Spec SpecF32 ProofsPool Demo.

(** ** C18 *)
Theorem C18_window_maximum : forall e bm (image r : tensor f32) s rs f g mask stride,
  let AR := f32_arith e in
  @holds f32 AR bm image s f -> @holds f32 AR bm r rs g -> pool_ok s mask stride rs ->
  exists r', @max_pool bm f32 AR image mask stride r = Done r' /\ wf r' /\ tshape r' = rs
    /\ forall i j k, in_shape rs i j k ->
         exists m, @get_item bm f32 AR r' (mkIndex i j k) = Done m
           /\ max_of (window_values (di mask) (dj mask) stride f i j k) m.
Proof. exact max_pool_f32. Qed.
Print Assumptions C18_window_maximum.

Theorem C18_debug_unchanged : forall F (AR : Arith F) (image r r' : tensor F) mask stride,
  ~ pool_ok (tshape image) mask stride (tshape r) -> max_pool Debug image mask stride r = Done r' -> r' = r.
Proof. exact @max_pool_debug_unchanged. Qed.
Print Assumptions C18_debug_unchanged.

(** The same in both builds, without a panic, when the mask is not larger than the image. *)
Theorem C18_unchanged_partial : forall F (AR : Arith F) bm (image r : tensor F) mask stride,
  u32_shape (tshape image) -> stride <> 0 -> kernel_fits (tshape image) mask ->
  ~ extent_edge (di (tshape image)) (di mask) stride -> ~ extent_edge (dj (tshape image)) (dj mask) stride ->
  ~ pool_ok (tshape image) mask stride (tshape r) -> max_pool bm image mask stride r = Done r.
Proof. exact @max_pool_unchanged. Qed.
Print Assumptions C18_unchanged_partial.

(** A release build overwrites the result although the mask is larger than the image. *)
Theorem C18_release_refuted :
  let image := tn (mkShape 2 2 1) [1;2;3;4]%Z in let r := tn (mkShape 3 3 1) [9;9;9;9;9;9;9;9;9]%Z in
  let mask := mkShape 4 4 1 in
  wf image /\ wf r /\ ~ pool_ok (tshape image) mask 2147483647 (tshape r)
  /\ match max_pool Release image mask 2147483647 r with Done r' => tbits r' <> tbits r | _ => False end.
Proof.
  split; [demo_wf|]. split; [demo_wf|]. split; [intros (_ & (_ & H & _) & _); apply H; reflexivity|].
  vm_compute. discriminate.
Qed.
Print Assumptions C18_release_refuted.

Example C18_case :
  let image := tn (mkShape 4 2 1) [1;8;3;-4; 5;2;-7;-6]%Z in let r := tn (mkShape 2 1 1) [9;9]%Z in
  wf image /\ wf r /\ pool_ok (tshape image) (mkShape 2 2 1) 2 (tshape r)
  /\ out1 (max_pool Debug image (mkShape 2 2 1) 2 r) = Some (ints [8;3]%Z).
Proof.
  split; [demo_wf|]. split; [demo_wf|]. split; [repeat split; try reflexivity; discriminate|]. vm_compute; reflexivity.
Qed.

(** ** C19 *)
Theorem C19_track_origin : forall e bm (image r : tensor f32) s rs f g mask stride o,
  let AR := f32_arith e in
  @holds f32 AR bm image s f -> @holds f32 AR bm r rs g -> pool_ok s mask stride rs ->
  len o = di rs * dj rs * dk rs ->
  exists r' o', @max_pool_track_origin bm f32 AR image mask stride r o = Done (r', o', Ok tt)
    /\ @max_pool bm f32 AR image mask stride r = Done r'
    /\ len o' = di rs * dj rs * dk rs
    /\ forall i j k, in_shape rs i j k ->
         exists m p, @get_item bm f32 AR r' (mkIndex i j k) = Done m
           /\ nth_error o' (N.to_nat (flat rs i j k)) = Some p
           /\ (m = f32_ninf /\ p = 0
                 /\ (forall x, In x (window_values (di mask) (dj mask) stride f i j k) -> f32_gtb x f32_ninf = false)
               \/ first_max (window_positions (di mask) (dj mask) stride i j k)
                    (fun '(a, b, c) => f a b c) (fun '(a, b, c) => flat s a b c) m p).
Proof. exact max_pool_track_f32. Qed.
Print Assumptions C19_track_origin.

Theorem C19_rejects : forall F (AR : Arith F) bm (image r : tensor F) mask stride o,
  wf image -> wf r -> stride <> 0 -> kernel_fits (tshape image) mask ->
  ~ extent_edge (di (tshape image)) (di mask) stride -> ~ extent_edge (dj (tshape image)) (dj mask) stride ->
  (~ pool_ok (tshape image) mask stride (tshape r) \/ len o <> di (tshape r) * dj (tshape r) * dk (tshape r)) ->
  exists e, max_pool_track_origin bm image mask stride r o = Done (r, o, Err e).
Proof. exact @track_rejects. Qed.
Print Assumptions C19_rejects.

Example C19_case :
  let image := tn (mkShape 4 2 1) [1;8;3;-4; 8;2;-7;3]%Z in let r := tn (mkShape 2 1 1) [9;9]%Z in
  wf image /\ wf r /\ pool_ok (tshape image) (mkShape 2 2 1) 2 (tshape r)
  /\ match max_pool_track_origin Debug image (mkShape 2 2 1) 2 r [7;7] with
     | Done (t, o, Ok _) => (tbits t, o) = (ints [8;3]%Z, [1;2])
     | _ => False
     end.
Proof.
  split; [demo_wf|]. split; [demo_wf|]. split; [repeat split; try reflexivity; discriminate|]. vm_compute; reflexivity.
Qed.
