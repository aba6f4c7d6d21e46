(** * Concrete values for the examples beside the theorems *)
From Coq Require Import ZifyBool ZifyNat ZifyN.
From Flocq Require Import IEEE754.Bits.
From Verif Require Import Base Arith Helper Tensor Float32 Spec Loops TensorFacts ProofsTensor.

#[export] Instance demo_f32 : Arith f32 := f32_arith demo_env.

(** The f32 tensor of shape [s] with integer entries [l]. *)
Definition tn (s : shape) (l : list Z) : tensor f32 :=
  mkTensor (mkStride 1 (di s) (di s * dj s)) s (map f32_of_Z l).

Definition wfb {F} (t : tensor F) : bool :=
  let s := tshape t in
  (di s <? W32) && (dj s <? W32) && (dk s <? W32) && (di s * dj s <? W32) && (di s * dj s * dk s <? W32)
  && (si (strides t) =? 1) && (sj (strides t) =? di s) && (sk (strides t) =? di s * dj s)
  && (len (data t) =? di s * dj s * dk s).

Lemma wfb_wf {F} (t : tensor F) : wfb t = true -> wf t.
Proof.
  unfold wfb, wf, allocatable. intros H. repeat rewrite andb_true_iff in H.
  destruct H as ((((((((H1 & H2) & H3) & H4) & H5) & H6) & H7) & H8) & H9).
  destruct (strides t) as [a b c]; cbn [si sj sk] in *.
  split; [lia|]. split; [|lia]. f_equal; lia.
Qed.

(** The function a tensor of the demo holds. *)
Definition at_ {F} {AR : Arith F} (t : tensor F) (i j k : N) : F :=
  nth (N.to_nat (flat (tshape t) i j k)) (data t) fzero.

Lemma demo_holds {F} {AR : Arith F} bm (t : tensor F) : wfb t = true -> holds bm t (tshape t) (at_ t).
Proof. intros H. apply wfb_wf in H. apply (holds_wf bm t H). Qed.

Ltac demo_wf := apply wfb_wf; vm_compute; reflexivity.
Ltac demo_hold := apply demo_holds; vm_compute; reflexivity.

(** Bit patterns, for comparing computed values with expected ones. *)
Definition bits (x : f32) : Z := bits_of_b32 x.
Definition ints (l : list Z) : list Z := map (fun z => bits (f32_of_Z z)) l.
Definition tbits (t : tensor f32) : list Z := map bits (data t).

(** The elements of a returned tensor; [None] after a panic or an [Err]. *)
Definition out1 (r : res (tensor f32)) : option (list Z) :=
  match r with Done t => Some (tbits t) | Panic _ => None end.
Definition out2 (r : res (tensor f32 * result unit)) : option (list Z) :=
  match r with Done (t, Ok _) => Some (tbits t) | _ => None end.
Definition out0 (r : res f32) : option Z :=
  match r with Done x => Some (bits x) | Panic _ => None end.
