(** * Vocabulary for C105: a network cut in two *)
From Verif Require Import Base Arith Helper Tensor Network Bincode Serial Spec SpecLayer SpecNet.

Section Pieces.
Context {F : Type} {AR : Arith F} {BT : Bits F}.

(** The calls on a network, made on two networks instead: a forward pass hands the output of the first to the second, a backward pass hands
    the gradient the second leaves at its input to the first. New layers go to the second. *)
Definition pieces_op (bm : build) (ab : network F * network F) (op : net_op F) : res ((network F * network F) * result unit) :=
  let (a, b) := ab in
  match op with
  | OAdd l => '(b1, r) <- add_layer bm b l ;; Done ((a, b1), r)
  | OLoad fs name => '(b1, r) <- network_load bm b fs name ;; Done ((a, b1), r)
  | OInfer x =>
      '(a1, r) <- infer bm a x ;;
      match r with
      | Err e => Done ((a1, b), Err e)
      | Ok _ =>
          y <- get_output a1 ;;
          match y with
          | Err e => Done ((a1, b), Err e)
          | Ok y => '(b1, r) <- infer bm b y ;; Done ((a1, b1), r)
          end
      end
  | OBackward g =>
      '(b1, r) <- net_backward bm b g ;;
      match r with
      | Err e => Done ((a, b1), Err e)
      | Ok _ => d <- vget (intermediate_gradients b1) 0 ;; '(a1, r) <- net_backward bm a d ;; Done ((a1, b1), r)
      end
  | OTrain => a1 <- net_switch_to_training bm a ;; b1 <- net_switch_to_training bm b ;; Done ((a1, b1), Ok tt)
  | OInference => a1 <- net_switch_to_inference bm a ;; b1 <- net_switch_to_inference bm b ;; Done ((a1, b1), Ok tt)
  end.

Fixpoint pieces_history (bm : build) (ab : network F * network F) (ops : list (net_op F)) : res ((network F * network F) * list (result unit)) :=
  match ops with
  | [] => Done (ab, [])
  | op :: ops => '(ab1, r) <- pieces_op bm ab op ;; '(ab2, rs) <- pieces_history bm ab1 ops ;; Done (ab2, r :: rs)
  end.

(** The two networks hold what the one network holds: layers with all they store, values and gradients at the layer boundaries (where they
    meet the first one's value and the second one's gradient are meant), mode, shapes and output. *)
Definition two_pieces (n a b : network F) : Prop :=
  layers n = (layers a ++ layers b)%list
  /\ intermediate_states n = (intermediate_states a ++ tl (intermediate_states b))%list
  /\ intermediate_gradients n = (removelast (intermediate_gradients a) ++ intermediate_gradients b)%list
  /\ net_input_shape n = net_input_shape a /\ net_output_shape a = net_input_shape b /\ net_output_shape n = net_output_shape b
  /\ get_run_state a = get_run_state n /\ get_run_state b = get_run_state n
  /\ get_output n = get_output b.

End Pieces.
