(** * C83: the layers returned by empty() can be run *)
From Verif Require Import Base Arith Helper Tensor FullyConnected Convolutional MaxPool Softmax Network Float32 Float32Facts SpecEmpty ProofsEmpty Demo DemoNet DemoSerial.
Local Open Scope N_scope.

(** In both modes and builds, on every f32: zero from the fully connected layer, the input itself from the max-pool layer unless it is a
    NaN, and the quotient of its exponential by itself from the softmax layer. *)
Theorem C83_empty_partial : forall e bm st x,
  let AR := f32_arith e in
  (exists l, fc_empty bm = Done l /\ answers bm st (LFC l) x f32_zero)
  /\ answers bm st (LMaxPool mp_empty) x (if isnan x then f32_ninf else x)
  /\ exists l, sm_empty bm = Done l /\ answers bm st (LSoftmax l) x (f32_div e (env_exp e x) (f32_add e f32_zero (env_exp e x))).
Proof. exact empty_layers. Qed.
Print Assumptions C83_empty_partial.

(** The convolutional layer has an output channel but no kernel for it: a network takes it, and every inference panics. *)
Theorem C83_convolutional_refuted : forall F (AR : Arith F) bm st,
  exists (l : conv_layer F) n, cv_empty bm = Done l /\ add_layer bm (network_new st) (LConv l) = Done (n, Ok tt)
    /\ net_input_shape n = mkShape 1 1 1 /\ forall x, exists p, infer bm n (single x) = Panic p.
Proof. exact @cv_empty_panics. Qed.
Print Assumptions C83_convolutional_refuted.

(** The input 3, computed. *)
Example C83_case :
  out1 ('(n, _) <- add_layer Debug (network_new Training) (LMaxPool mp_empty) ;; '(n', _) <- infer Debug n (single (f32_of_Z 3)) ;;
        r <- get_output n' ;; match r with Ok Y => Done Y | Err _ => Panic PUnwrap end) = Some (ints [3]%Z)
  /\ panics (l <- cv_empty Debug ;; '(n, _) <- add_layer Debug (network_new Inference) (LConv l) ;; infer Debug n (single (f32_of_Z 3))) = true.
Proof. split; vm_compute; reflexivity. Qed.
