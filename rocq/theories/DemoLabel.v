(** * The example of C107: the network of C105 under other names *)
From Verif Require Import Base Arith Helper Tensor Network Bincode Serial Float32 Spec SpecLayer SpecNet SpecPlatform SpecLabel Demo DemoNet DemoPieces.
Local Open Scope N_scope.

Definition l_other : network f32 :=
  match layers c_n with
  | [a; b; c] => mkNet [rename "dense" a; rename "pool" b; rename "" c] (intermediate_states c_n) (intermediate_gradients c_n) (net_input_shape c_n) (net_output_shape c_n) (net_run_state c_n)
  | _ => c_n
  end.
Definition l_calls : list (net_op f32) := OInference :: OInfer d_image :: OTrain :: (c_calls ++ [OAdd d_sm; OInfer d_image])%list.
Definition l_calls' : list (net_op f32) := OInference :: OInfer d_image :: OTrain :: (c_calls ++ [OAdd (rename "sm" d_sm); OInfer d_image])%list.
Definition l_seen (n : network f32) (ops : list (net_op f32)) :=
  match @history _ (f32_arith demo_env) f32_bits Debug n ops with
  | Done (n1, rs) => Some (map get_name (layers n1), c_answers rs, c_gradients n1, map tbits (intermediate_states n1))
  | Panic _ => None
  end.

