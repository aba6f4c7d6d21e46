(** * UTF-8 *)
From Coq Require Import ZifyBool ZifyNat ZifyN Strings.Byte.
From Verif Require Import Base Arith Helper Tensor Convolution FullyConnected Convolutional MaxPool Softmax Network Bincode Serial Spec SpecLayer SpecSerial SerialFacts Loops LayerFacts NetFacts ProofsLoad SpecUtf8.
Local Open Scope N_scope.
Ltac Zify.zify_post_hook ::= Z.div_mod_to_equations.

Definition code2 x y := x * 64 + y.
Definition code3 x y z := x * 4096 + y * 64 + z.
Definition code4 x y z w := x * 262144 + y * 4096 + z * 64 + w.

Lemma parts2 c : 128 <= c < 2048 -> exists x y, c = code2 x y /\ 2 <= x < 32 /\ y < 64 /\ utf8_encode c = [192 + x; 128 + y].
Proof.
  intros H. exists (c / 64), (c mod 64). unfold utf8_encode, code2. replace (c <? 128) with false by lia. replace (c <? 2048) with true by lia. repeat split; lia.
Qed.

Lemma parts3 c : 2048 <= c < 65536 -> exists x y z, c = code3 x y z /\ x < 16 /\ y < 64 /\ z < 64 /\ utf8_encode c = [224 + x; 128 + y; 128 + z].
Proof.
  intros H. exists (c / 4096), (c / 64 mod 64), (c mod 64). unfold utf8_encode, code3. replace (c <? 128) with false by lia. replace (c <? 2048) with false by lia.
  replace (c <? 65536) with true by lia. repeat split; lia.
Qed.

Lemma parts4 c : 65536 <= c <= 1114111 ->
  exists x y z w, c = code4 x y z w /\ x < 5 /\ y < 64 /\ z < 64 /\ w < 64 /\ utf8_encode c = [240 + x; 128 + y; 128 + z; 128 + w].
Proof.
  intros H. exists (c / 262144), (c / 4096 mod 64), (c / 64 mod 64), (c mod 64). unfold utf8_encode, code4. replace (c <? 128) with false by lia.
  replace (c <? 2048) with false by lia. replace (c <? 65536) with false by lia. repeat split; lia.
Qed.

Lemma encode1 c : c < 128 -> utf8_encode c = [c].
Proof. intros H. unfold utf8_encode. replace (c <? 128) with true by lia. reflexivity. Qed.

Lemma encode2 x y : 2 <= x < 32 -> y < 64 -> utf8_encode (code2 x y) = [192 + x; 128 + y].
Proof. intros H1 H2. destruct (parts2 (code2 x y)) as (x' & y' & E & ? & ? & ->); unfold code2 in *; [lia|]. repeat f_equal; lia. Qed.

Lemma encode3 x y z : x < 16 -> y < 64 -> z < 64 -> 2048 <= code3 x y z -> utf8_encode (code3 x y z) = [224 + x; 128 + y; 128 + z].
Proof. intros H1 H2 H3 H4. destruct (parts3 (code3 x y z)) as (x' & y' & z' & E & ? & ? & ? & ->); unfold code3 in *; [lia|]. repeat f_equal; lia. Qed.

Lemma encode4 x y z w : x < 5 -> y < 64 -> z < 64 -> w < 64 -> 65536 <= code4 x y z w <= 1114111 ->
  utf8_encode (code4 x y z w) = [240 + x; 128 + y; 128 + z; 128 + w].
Proof. intros H1 H2 H3 H4 H5. destruct (parts4 (code4 x y z w)) as (x' & y' & z' & w' & E & ? & ? & ? & ? & ->); unfold code4 in *; [lia|]. repeat f_equal; lia. Qed.

Lemma in_range_iff lo hi b : in_range lo hi b = true <-> lo <= Byte.to_N b <= hi.
Proof. unfold in_range. lia. Qed.

Lemma valid_decodes n : forall l, (length l < n)%nat -> utf8_valid l = true -> exists cs, Forall scalar cs /\ map Byte.to_N l = flat_map utf8_encode cs.
Proof.
  induction n as [|n IH]; intros l Hl H; [lia|]. destruct l as [|b0 t0]; [exists []; split; [constructor|reflexivity]|].
  cbn [utf8_valid] in H. cbn [length] in Hl. destruct (in_range 0 127 b0) eqn:R0.
  { destruct (IH t0 ltac:(lia) H) as (cs & Hc & E). apply in_range_iff in R0. exists (Byte.to_N b0 :: cs). split; [constructor; [left; lia|exact Hc]|].
    cbn [map flat_map]. rewrite encode1, E by lia. reflexivity. }
  destruct t0 as [|b1 t1]; [discriminate|]. cbn [length] in Hl. destruct (in_range 194 223 b0 && in_range 128 191 b1) eqn:R1.
  { destruct (IH t1 ltac:(lia) H) as (cs & Hc & E). apply andb_prop in R1. rewrite !in_range_iff in R1. exists (code2 (Byte.to_N b0 - 192) (Byte.to_N b1 - 128) :: cs).
    split; [constructor; [left; unfold code2; lia|exact Hc]|]. cbn [map flat_map]. rewrite encode2, E by lia. cbn [app]. repeat f_equal; lia. }
  destruct t1 as [|b2 t2]; [discriminate|]. cbn [length] in Hl. destruct (_ && in_range 128 191 b2) eqn:R2.
  { destruct (IH t2 ltac:(lia) H) as (cs & Hc & E). apply andb_prop in R2. rewrite !Bool.orb_true_iff, !Bool.andb_true_iff, !in_range_iff in R2.
    exists (code3 (Byte.to_N b0 - 224) (Byte.to_N b1 - 128) (Byte.to_N b2 - 128) :: cs).
    split; [constructor; [unfold scalar, code3; lia|exact Hc]|]. cbn [map flat_map]. rewrite encode3, E by (unfold code3; lia). cbn [app]. repeat f_equal; lia. }
  destruct t2 as [|b3 t3]; [discriminate|]. cbn [length] in Hl. destruct (_ && in_range 128 191 b3) eqn:R3; [|discriminate].
  destruct (IH t3 ltac:(lia) H) as (cs & Hc & E). apply andb_prop in R3. rewrite !Bool.andb_true_iff, !Bool.orb_true_iff, !Bool.andb_true_iff, !in_range_iff in R3.
  exists (code4 (Byte.to_N b0 - 240) (Byte.to_N b1 - 128) (Byte.to_N b2 - 128) (Byte.to_N b3 - 128) :: cs).
  split; [constructor; [unfold scalar, code4; lia|exact Hc]|]. cbn [map flat_map]. rewrite encode4, E by (unfold code4; lia). cbn [app]. repeat f_equal; lia.
Qed.

Lemma scalar_cases c : scalar c -> c < 128 \/ 128 <= c < 2048 \/ (2048 <= c < 65536 /\ ~ 55296 <= c < 57344) \/ 65536 <= c <= 1114111.
Proof. unfold scalar. lia. Qed.

Ltac split_bytes l E := let b := fresh "b" in destruct l as [|b l]; [discriminate E|]; cbn [map app] in E; injection E as ? E.

Lemma decodes_valid cs : Forall scalar cs -> forall l, map Byte.to_N l = flat_map utf8_encode cs -> utf8_valid l = true.
Proof.
  induction 1 as [|c cs Hc H IH]; intros l E; [destruct l; [reflexivity|discriminate]|]. cbn [flat_map] in E.
  destruct (scalar_cases c Hc) as [C|[C|[C|C]]].
  - rewrite encode1 in E by exact C. split_bytes l E. cbn [utf8_valid]. replace (in_range 0 127 b) with true by (unfold in_range; lia). apply IH. exact E.
  - destruct (parts2 c C) as (x & y & -> & X & Y & U). rewrite U in E. do 2 split_bytes l E. cbn [utf8_valid].
    replace (in_range 0 127 b) with false by (unfold in_range; lia). replace (in_range 194 223 b && in_range 128 191 b0) with true by (unfold in_range; lia). apply IH. exact E.
  - destruct C as (C & C'). destruct (parts3 c C) as (x & y & z & -> & X & Y & Z & U). rewrite U in E. unfold code3 in C, C'. do 3 split_bytes l E. cbn [utf8_valid].
    replace (in_range 0 127 b) with false by (unfold in_range; lia). replace (in_range 194 223 b && in_range 128 191 b0) with false by (unfold in_range; lia).
    cbv iota. match goal with |- (if ?t then _ else _) = _ => replace t with true by (unfold in_range; lia) end. apply IH. exact E.
  - destruct (parts4 c C) as (x & y & z & w & -> & X & Y & Z & W & U). rewrite U in E. unfold code4 in C. do 4 split_bytes l E. cbn [utf8_valid].
    replace (in_range 0 127 b) with false by (unfold in_range; lia). replace (in_range 194 223 b && in_range 128 191 b0) with false by (unfold in_range; lia).
    cbv iota. match goal with |- (if ?t then _ else _) = _ => replace t with false by (unfold in_range; lia) end.
    cbv iota. match goal with |- (if ?t then _ else _) = _ => replace t with true by (unfold in_range; lia) end. apply IH. exact E.
Qed.

Lemma utf8_iff l : utf8_valid l = true <-> exists cs, Forall scalar cs /\ map Byte.to_N l = flat_map utf8_encode cs.
Proof. split; [intros H; exact (valid_decodes (S (length l)) l ltac:(lia) H)|]. intros (cs & H & E). exact (decodes_valid cs H l E). Qed.

(** No encoding is the beginning of another. *)
Lemma utf8_prefix c d l l' : scalar c -> scalar d -> utf8_encode c ++ l = utf8_encode d ++ l' -> c = d /\ l = l'.
Proof.
  intros Hc Hd. destruct (scalar_cases c Hc) as [C|[C|[C|C]]], (scalar_cases d Hd) as [D|[D|[D|D]]];
    repeat match goal with H : _ /\ ~ _ |- _ => destruct H as (H & _) end;
    first [rewrite (encode1 c C)|destruct (parts2 c C) as (? & ? & -> & ? & ? & ->)|destruct (parts3 c C) as (? & ? & ? & -> & ? & ? & ? & ->)|destruct (parts4 c C) as (? & ? & ? & ? & -> & ? & ? & ? & ? & ->)];
    first [rewrite (encode1 d D)|destruct (parts2 d D) as (? & ? & -> & ? & ? & ->)|destruct (parts3 d D) as (? & ? & ? & -> & ? & ? & ? & ->)|destruct (parts4 d D) as (? & ? & ? & ? & -> & ? & ? & ? & ? & ->)];
    cbn [app]; intros E; injection E; intros; subst; try lia; (split; [unfold code2, code3, code4; lia|reflexivity]).
Qed.

Lemma utf8_unique cs : forall ds, Forall scalar cs -> Forall scalar ds -> flat_map utf8_encode cs = flat_map utf8_encode ds -> cs = ds.
Proof.
  assert (NE : forall c l, utf8_encode c ++ l <> []). { intros c l. unfold utf8_encode. destruct (c <? 128), (c <? 2048), (c <? 65536); discriminate. }
  induction cs as [|c cs IH]; intros [|d ds] Hc Hd E; cbn [flat_map] in E; [reflexivity|symmetry in E; now apply NE in E|now apply NE in E|].
  inversion Hc; inversion Hd; subst. apply utf8_prefix in E; [|assumption|assumption]. destruct E as (-> & E). f_equal. apply IH; assumption.
Qed.

Lemma utf8_read v rest : len v < W64 ->
  (utf8_valid v = true -> dec_string (enc_vec_u8 v ++ rest) = Some (string_of_list_byte v, rest))
  /\ (utf8_valid v = false -> dec_string (enc_vec_u8 v ++ rest) = None).
Proof.
  intros L. pose proof (proj1 (codec_vec_u8 v L) rest) as C. unfold dec_string, pbind. rewrite C. split; intros ->; reflexivity.
Qed.

Lemma utf8_read_spec v rest : len v < W64 ->
  (forall cs, Forall scalar cs -> map Byte.to_N v = flat_map utf8_encode cs -> dec_string (enc_vec_u8 v ++ rest) = Some (string_of_list_byte v, rest))
  /\ ((forall cs, Forall scalar cs -> map Byte.to_N v <> flat_map utf8_encode cs) -> dec_string (enc_vec_u8 v ++ rest) = None).
Proof.
  intros L. destruct (utf8_read v rest L) as (R1 & R2). split.
  - intros cs Hc E. apply R1. apply utf8_iff. eauto.
  - intros H. apply R2. apply Bool.not_true_is_false. intros U. apply utf8_iff in U. destruct U as (cs & Hc & E). exact (H cs Hc E).
Qed.

(** ** Names in networks *)
Lemma expect_string d s : deserialize_expect dec_string d = Done s -> rust_string s.
Proof.
  unfold deserialize_expect, deserialize, dec_string, pbind. intros E. destruct (dec_vec_u8 d) as [(v & r)|]; [|discriminate].
  destruct (utf8_valid v) eqn:U; [|discriminate]. cbn in E. injection E as <-. unfold rust_string. rewrite list_byte_of_string_of_list_byte. exact U.
Qed.

Section Names.
Context {F : Type} {AR : Arith F} {BT : Bits F}.
Context (bm : build).

Ltac keys E := repeat match type of E with (if ?b then _ else _) = _ => destruct b; [discriminate E|] end.
Ltac binds E := repeat (apply bind_done in E; let x := fresh "x" in let Q := fresh "Q" in destruct E as (x & Q & E)).

Lemma fc_update_name (l l' : fc_layer F) : fc_update bm l = Done l' -> fc_name l' = fc_name l.
Proof. unfold fc_update. intros E. destruct (fc_run_state l); binds E; injection E as <-; reflexivity. Qed.

Lemma fc_loaded_name (l l' : fc_layer F) m : fc_load_data bm l m = Done (l', Ok tt) -> rust_string (fc_name l').
Proof.
  unfold fc_load_data. intros E. keys E. binds E. unfold fc_fill_from_state in E. keys E. binds E. injection E as <-.
  match goal with H : fc_update bm _ = Done _ |- _ => apply fc_update_name in H; rewrite H end. eapply expect_string; eassumption.
Qed.

Lemma cv_loaded_name (l l' : conv_layer F) m : cv_load_data bm l m = Done (l', Ok tt) -> rust_string (cv_name l').
Proof.
  unfold cv_load_data. intros E. keys E. binds E. unfold cv_fill_from_state in E. destruct x0; [discriminate|]. keys E. binds E. keys E. binds E.
  match goal with x : (N * N)%type |- _ => destruct x as (d0 & d1) end. injection E as <-. eapply expect_string; eassumption.
Qed.

Lemma mp_loaded_name (l l' : mp_layer) m : mp_load_data bm l m = Done (l', Ok tt) -> rust_string (mp_name l').
Proof.
  unfold mp_load_data. intros E. keys E. binds E. unfold mp_fill_from_state in E. binds E. keys E. binds E.
  match goal with x : (N * N)%type |- _ => destruct x as (d0 & d1) end. injection E as <-. eapply expect_string; eassumption.
Qed.

Lemma sm_loaded_name (l l' : sm_layer F) m : sm_load_data l m = Done (l', Ok tt) -> rust_string (sm_name l').
Proof. unfold sm_load_data. intros E. keys E. binds E. injection E as <-. eapply expect_string; eassumption. Qed.

Definition named (n : network F) : Prop := Forall (fun l => rust_string (get_name l)) (layers n).

Lemma add_named (n n' : network F) l r : named n -> rust_string (get_name l) -> add_layer bm n l = Done (n', r) -> named n'.
Proof.
  unfold named. intros H Hl E. apply add_layer_done in E. destruct E as [(_ & _ & l' & ss & L & I & _)|(_ & -> & _)]; [|exact H]. rewrite L. apply Forall_app. split; [exact H|].
  constructor; [|constructor]. replace (get_name l') with (get_name l); [exact Hl|]. symmetry. exact (f_equal (fun x => snd (fst x)) I).
Qed.

Lemma load_and_add_named {X} (c : X -> layer F) rx (n n' : network F) r : (forall l, rx = Done (l, Ok tt) -> rust_string (get_name (c l))) ->
  named n -> load_and_add bm c rx n = Done (n', r) -> named n'.
Proof.
  intros H Hn E. unfold load_and_add in E. binds E. destruct x as (l & [[]|]); [|congruence]. eapply add_named; [exact Hn|apply H; exact Q|exact E].
Qed.

Lemma add_to_network_named s (n n' : network F) r : named n -> add_to_network bm s n = Done (n', r) -> named n'.
Proof.
  intros Hn. destruct s; cbn [add_to_network]; apply load_and_add_named; try exact Hn; intros l E; cbn [get_name].
  - apply bind_done in E. destruct E as (l0 & _ & E). exact (cv_loaded_name _ _ _ E).
  - apply bind_done in E. destruct E as (l0 & _ & E). exact (fc_loaded_name _ _ _ E).
  - exact (mp_loaded_name _ _ _ E).
  - apply bind_done in E. destruct E as (l0 & _ & E). exact (sm_loaded_name _ _ _ E).
Qed.

Lemma load_named (n n' : network F) fs name r : named n -> network_load bm n fs name = Done (n', r) -> named n'.
Proof.
  unfold network_load. intros Hn E. destruct (fs name) as [b|]; [|congruence]. destruct (deserialize dec_network b) as [sn|]; [|congruence].
  unfold populate_network in E. revert n Hn E. induction sn as [|s sn IH]; intros n Hn E; cbn [tryM] in E; [congruence|].
  apply bind_done in E. destruct E as ((n1 & [[]|m]) & E1 & E2).
  - eapply IH; [|exact E2]. eapply add_to_network_named; eassumption.
  - injection E2 as <- <-. eapply add_to_network_named; eassumption.
Qed.
End Names.

Lemma load_names {F} {AR : Arith F} {BT : Bits F} bm (n n' : network F) fs name r :
  (forall l, In l (layers n) -> exists cs, Forall scalar cs /\ map Byte.to_N (list_byte_of_string (get_name l)) = flat_map utf8_encode cs) ->
  network_load bm n fs name = Done (n', r) ->
  forall l, In l (layers n') -> exists cs, Forall scalar cs /\ map Byte.to_N (list_byte_of_string (get_name l)) = flat_map utf8_encode cs.
Proof.
  intros H E l Hl. apply utf8_iff. assert (N' : named n'). { eapply load_named; [|exact E]. apply Forall_forall. intros x Hx. apply utf8_iff. apply H. exact Hx. }
  unfold named in N'. rewrite Forall_forall in N'. exact (N' l Hl).
Qed.
