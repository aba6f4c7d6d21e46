(** * C108: layers that do nothing *)
From Flocq Require Import IEEE754.Binary.
From Verif Require Import Base Arith Helper Tensor Network Bincode Serial Float32 Spec SpecLayer SpecNet SpecError SpecNeutral.
From Verif Require Import ProofsNeutral Demo DemoNet DemoNeutral.
Local Open Scope N_scope.

(** [n'] is [n] with a layer that does nothing between the layers [A] and [B], both run on [X]; [Z] is what [n] holds at that place. *)
Theorem C108_inserted : forall e bm (n n' : network f32) A p B X m m' Z, let AR := f32_arith e in
  well_built bm n -> well_built bm n' -> map params_of (layers n) = (A ++ B)%list -> map params_of (layers n') = (A ++ p :: B)%list -> does_nothing e bm p ->
  wf X -> infer bm n X = Done (m, Ok tt) -> infer bm n' X = Done (m', Ok tt) ->
  get_intermediate_state m (len A) = Done (Ok Z) -> Forall (passes p) (data Z) -> get_output m' = get_output m.
Proof. exact inserted_nothing. Qed.
Print Assumptions C108_inserted.

(** Behind a fully connected or convolutional layer the values need only be finite. *)
Theorem C108_behind_relu : forall e bm (n n' : network f32) A a p B X m m' Z, let AR := f32_arith e in
  well_built bm n -> well_built bm n' -> map params_of (layers n) = (A ++ a :: B)%list -> map params_of (layers n') = (A ++ a :: p :: B)%list -> does_nothing e bm p ->
  match a with PFC _ _ | PConv _ _ _ _ _ => True | _ => False end ->
  wf X -> infer bm n X = Done (m, Ok tt) -> infer bm n' X = Done (m', Ok tt) ->
  get_intermediate_state m (len A + 1) = Done (Ok Z) -> Forall (fun v => fin v = true) (data Z) -> get_output m' = get_output m.
Proof. exact inserted_behind_relu. Qed.
Print Assumptions C108_behind_relu.

(** Between two fully connected layers, behind a convolution with two channels, and pooling in front of everything. Where a value is
    negative, an identity matrix does change something: the last line. *)
Example C108_case :
  (does_nothing demo_env Debug (params_of i_fc) /\ does_nothing demo_env Debug (params_of i_cv) /\ does_nothing demo_env Debug (params_of i_mp))
  /\ (exists n n', (well_built Debug n /\ map params_of (layers n) = map params_of ([d_mp; d_fc] ++ [d_fc]) /\ i_run n d_image 2 = Some (ints [18; 0], ints [19; 0])%Z)
        /\ (well_built Debug n' /\ map params_of (layers n') = map params_of ([d_mp; d_fc] ++ i_fc :: [d_fc]) /\ i_run n' d_image 2 = Some (ints [18; 0], ints [19; 0])%Z))
  /\ (exists n n', (well_built Debug n /\ map params_of (layers n) = map params_of [d_cv] /\ i_run n i_square 1 = Some (ints [7; 9; 0; 15; 0; 0; 0; 0], ints [7; 9; 0; 15; 0; 0; 0; 0])%Z)
        /\ (well_built Debug n' /\ map params_of (layers n') = map params_of [d_cv; i_cv] /\ i_run n' i_square 1 = Some (ints [7; 9; 0; 15; 0; 0; 0; 0], ints [7; 9; 0; 15; 0; 0; 0; 0])%Z))
  /\ (exists n n', (well_built Debug n /\ map params_of (layers n) = map params_of [d_mp; d_fc] /\ i_run n d_image 0 = Some (ints [1; 8; 3; -4; 5; 2; -7; -6], ints [18; 0])%Z)
        /\ (well_built Debug n' /\ map params_of (layers n') = map params_of [i_mp; d_mp; d_fc] /\ i_run n' d_image 1 = Some (ints [1; 8; 3; -4; 5; 2; -7; -6], ints [18; 0])%Z))
  /\ i_try [i_fc] (tn (mkShape 2 1 1) [-1; 2]%Z) 0 = Some (ints [-1; 2], ints [0; 2])%Z.
Proof. exact (conj (conj i_fc_nothing (conj i_cv_nothing i_mp_nothing)) (conj i_between (conj i_behind (conj i_front i_clips)))). Qed.
