(** * Vocabulary for C59: training on a batch of samples *)
From Coq Require Import Reals.
From Verif Require Import Base Arith Helper Tensor Network Spec SpecLayer SpecReal RealArith SpecChain.

(** One forward and one backward pass per sample; a sample is an input and the gradient of its loss in the output. *)
Fixpoint train {F} {AR : Arith F} (bm : build) (n : network F) (batch : list (tensor F * tensor F)) : res (network F * result unit) :=
  match batch with
  | [] => Done (n, Ok tt)
  | (x, g) :: rest =>
      '(n1, r) <- infer bm n x ;;
      match r with
      | Err e => Done (n1, Err e)
      | Ok _ =>
          '(n2, r) <- net_backward bm n1 g ;;
          match r with
          | Err e => Done (n2, Err e)
          | Ok _ => train bm n2 rest
          end
      end
  end.

(** [batch_loss bm n batch l]: the pairings of [n]'s outputs with the samples' gradients sum to [l]. *)
Inductive batch_loss (low : R) (bm : build) (n : network R) : list (tensor R * tensor R) -> R -> Prop :=
| loss_none : batch_loss low bm n [] 0%R
| loss_one x g rest n' y yv gv l :
    let AR := R_arith low in
    infer bm n x = Done (n', Ok tt) -> get_output n' = Done (Ok y) ->
    holds bm y (net_output_shape n) yv -> holds bm g (net_output_shape n) gv ->
    batch_loss low bm n rest l ->
    batch_loss low bm n ((x, g) :: rest) (pairing (net_output_shape n) gv yv + l)%R.

(** A sample of the right shapes at whose input the network is differentiable. *)
Definition sample_ok (low : R) (bm : build) (n : network R) (s : tensor R * tensor R) : Prop :=
  shaped (fst s) (net_input_shape n) /\ shaped (snd s) (net_output_shape n) /\ smooth low bm (map params_of (layers n)) (fst s).
