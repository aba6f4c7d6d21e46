(** * Two platforms for the example of C102 *)
From Flocq Require Import IEEE754.Binary IEEE754.Bits.
From Verif Require Import Base Arith Helper Tensor Network Bincode Serial Spec SpecLayer SpecNet SpecPlatform Float32 Demo DemoNet.
Local Open Scope N_scope.

(** The NaN with all bits set. *)
Definition other_nan : a_nan := exist _ (b32 4294967295) eq_refl.

Definition nan_exp (x : f32) : f32 := if isnan x then x else demo_exp x.

Definition platform_a : env := {| nan_add := binop_nan_pl32; nan_mul := binop_nan_pl32; nan_div := binop_nan_pl32; nan_sqrt := unop_nan_pl32;
  max_zero := fun _ _ => true; env_exp := nan_exp; env_powi2 := env_powi2 demo_env |}.
Definition platform_b : env := {| nan_add := fun _ _ => other_nan; nan_mul := fun _ _ => other_nan; nan_div := fun _ _ => other_nan; nan_sqrt := fun _ => other_nan;
  max_zero := fun _ _ => false; env_exp := nan_exp; env_powi2 := fun _ => f32_zero |}.

(** A fully connected and a softmax layer, trained with a loss gradient that holds a NaN. *)
Definition p_calls : list (net_op f32) :=
  [OAdd d_fc; OAdd d_sm; OInfer (tn (mkShape 2 1 1) [1; 1]%Z); OBackward (mkTensor (mkStride 1 2 2) (mkShape 2 1 1) [b32 2143289344; f32_of_Z 1]);
   OInfer (mkTensor (mkStride 1 2 2) (mkShape 2 1 1) [b32 2143289344; f32_of_Z 1]); OInfer (tn (mkShape 1 1 1) [1]%Z)].

(** The results of the calls, the bits of the states after the last call and of the bias gradients. *)
Definition p_seen (e : env) : option (list bool * list (list Z) * list (list Z)) :=
  match @history _ (f32_arith e) f32_bits Debug (network_new Training) p_calls with
  | Done (n, rs) => Some (map (fun r => match r with Ok _ => true | Err _ => false end) rs, map tbits (intermediate_states n),
      map (fun l => match l with LFC f => tbits (fc_bias_gradients f) | _ => [] end) (layers n))
  | Panic _ => None
  end.

Lemma p_same : same_exp platform_a platform_b.
Proof. split; [reflexivity|]. intros x H. cbn. unfold nan_exp. rewrite H. exact H. Qed.
