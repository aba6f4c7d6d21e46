(** * C94: behind softmax, loss gradients that differ by a constant have the same effect *)
From Coq Require Import Reals Lra Lia.
From Verif Require Import Base Arith Helper Tensor Network Bincode Serial Float32 RealArith Spec SpecLayer SpecNet SpecReal ProofsShift Demo DemoReal DemoNet DemoGrad DemoClass.
Local Open Scope R_scope.

(** [D] and [D'] are the gradients in front of the softmax layer. Each sums to zero. They are the same exactly if the loss gradients differ by
    a constant, and then so are all layers in front of the softmax layer (with the gradients they have accumulated) and all gradients
    between them. *)
Theorem C94_constant_shift : forall low (BT : Bits R) bm (n : network R) ls l (X G G' : tensor R) g g',
  let AR := R_arith low in
  training_built bm n -> layers n = (ls ++ [LSoftmax l])%list -> Forall stays_inside (layers n) -> Forall backs (layers n) ->
  shaped X (net_input_shape n) -> (exists i j k, in_shape (net_output_shape n) i j k) ->
  holds bm G (net_output_shape n) g -> holds bm G' (net_output_shape n) g' ->
  exists n1 n2 n2' D D' d d', infer bm n X = Done (n1, Ok tt) /\ net_backward bm n1 G = Done (n2, Ok tt) /\ net_backward bm n1 G' = Done (n2', Ok tt)
    /\ nth_error (intermediate_gradients n2) (length ls) = Some D /\ nth_error (intermediate_gradients n2') (length ls) = Some D'
    /\ holds bm D (net_output_shape n) d /\ Rsum (map (fun '(i, j, k) => d i j k) (cells (net_output_shape n))) = 0
    /\ holds bm D' (net_output_shape n) d' /\ Rsum (map (fun '(i, j, k) => d' i j k) (cells (net_output_shape n))) = 0
    /\ (D = D' <-> exists c, forall i j k, in_shape (net_output_shape n) i j k -> g' i j k = g i j k + c)
    /\ (D = D' -> firstn (length ls) (layers n2) = firstn (length ls) (layers n2')
         /\ firstn (length ls) (intermediate_gradients n2) = firstn (length ls) (intermediate_gradients n2')).
Proof. exact @shift_net. Qed.
Print Assumptions C94_constant_shift.

(** Pooling, a fully connected layer and softmax meet the hypotheses. *)
Example C94_case : training_built Debug r_net /\ shaped r_x (net_input_shape r_net) /\ (exists ls l, layers r_net = (ls ++ [LSoftmax l])%list)
  /\ Forall stays_inside (layers r_net) /\ Forall backs (layers r_net) /\ (exists i j k, in_shape (net_output_shape r_net) i j k).
Proof.
  assert (E : exists a b c, layers r_net = [LMaxPool a; LFC b; LSoftmax c]) by (run_R; do 3 eexists; reflexivity). destruct E as (a & b & c & E).
  pose proof r_net_params as P. rewrite E in P. cbn [map params_of] in P. injection P as Pa _ _ _ _ _ Pc.
  split; [exact r_net_built|]. split; [demo_shaped|]. rewrite E. split; [exists [LMaxPool a; LFC b], c; reflexivity|].
  split; [repeat constructor|]. split.
  - constructor; [cbn [backs]; rewrite Pa; reflexivity|]. constructor; [exact I|]. constructor; [cbn [backs]; rewrite Pc; split; reflexivity|constructor].
  - assert (S : net_output_shape r_net = mkShape 2 1 1) by (run_R; reflexivity). rewrite S. exists 0%N, 0%N, 0%N. repeat split; reflexivity.
Qed.

(** In f32, two units and softmax at equal values: the loss gradients (1, 3) and (8, 10) both give (-1/2, 1/2) in front of the softmax layer and
    the same bias gradients. *)
Example C94_run :
  let f n g := match infer Debug n (tn (mkShape 2 1 1) [1;1]%Z) with
    | Done (n1, Ok _) => match net_backward Debug n1 (tn (mkShape 2 1 1) g) with
        | Done (n2, Ok _) => match layers n2, intermediate_gradients n2 with
            | LFC q :: _, _ :: t :: _ => Some (tbits t, tbits (FullyConnected.fc_bias_gradients q))
            | _, _ => None
            end
        | _ => None
        end
    | _ => None
    end in
  match run_all Debug (network_new Training) [OAdd k_fc; OAdd d_sm] with
  | Some n => f n [1;3]%Z = Some ([3204448256; 1056964608], [3204448256; 1056964608])%Z /\ f n [8;10]%Z = f n [1;3]%Z
  | None => False
  end.
Proof. vm_compute. split; reflexivity. Qed.
