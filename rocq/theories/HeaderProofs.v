From Coq Require Import ZArith List Lia Bool.
From Verif Require Import Base HeaderModel HeaderSpec.
Import ListNotations.
Open Scope Z_scope.

Ltac Zify.zify_post_hook ::= Z.div_mod_to_equations.

Lemma r8_w8 x r : u8 x -> r8 (w8 x ++ r) = Some (x, r).
Proof. intros. unfold w8, r8. simpl. rewrite wrap8_id by assumption. reflexivity. Qed.

Lemma r16_w16 x r : u16 x -> r16 (w16 x ++ r) = Some (x, r).
Proof.
  unfold u16. change (2 ^ 16) with 65536. intros. unfold w16, r16. cbn [app]. f_equal. f_equal. lia.
Qed.

Lemma raddr_waddr a r : addr_ok a -> raddr (waddr a ++ r) = Some (a, r).
Proof.
  unfold addr_ok. intros H. unfold waddr, raddr. cbn [app]. f_equal. f_equal.
  set (b1 := a / 2 ^ 8). set (b2 := a / 2 ^ 16). set (b3 := a / 2 ^ 24).
  set (b4 := a / 2 ^ 32). set (b5 := a / 2 ^ 40).
  assert (E2 : b2 = b1 / 256) by (unfold b2, b1; rewrite Z.div_div by lia; reflexivity).
  assert (E3 : b3 = b2 / 256) by (unfold b3, b2; rewrite Z.div_div by lia; reflexivity).
  assert (E4 : b4 = b3 / 256) by (unfold b4, b3; rewrite Z.div_div by lia; reflexivity).
  assert (E5 : b5 = b4 / 256) by (unfold b5, b4; rewrite Z.div_div by lia; reflexivity).
  assert (E1 : b1 = a / 256) by reflexivity.
  assert (R5 : 0 <= b5 < 256).
  { unfold b5. split. apply Z.div_pos; lia. apply Z.div_lt_upper_bound; lia. }
  clearbody b1 b2 b3 b4 b5.
  rewrite (Z.mod_small b5) by lia.
  pose proof (Z.div_mod a 256 ltac:(lia)). pose proof (Z.div_mod b1 256 ltac:(lia)).
  pose proof (Z.div_mod b2 256 ltac:(lia)). pose proof (Z.div_mod b3 256 ltac:(lia)).
  pose proof (Z.div_mod b4 256 ltac:(lia)).
  rewrite <- E1 in *. rewrite <- E2 in *. rewrite <- E3 in *. rewrite <- E4 in *. rewrite <- E5 in *.
  generalize dependent (a mod 256). generalize dependent (b1 mod 256).
  generalize dependent (b2 mod 256). generalize dependent (b3 mod 256).
  generalize dependent (b4 mod 256). intros. clear - H0 H1 H2 H3 H4. lia.
Qed.

Ltac legal_cases H :=
  let t := fresh "t" in
  unfold legal_type in H;
  match type of H with
  | 0 <= ?t <= 4 =>
    assert (t = 0 \/ t = 1 \/ t = 2 \/ t = 3 \/ t = 4) as [?|[?|[?|[?|?]]]] by lia
  end.

Ltac rd :=
  repeat first
    [ rewrite r8_w8 by assumption
    | rewrite r16_w16 by assumption
    | rewrite raddr_waddr by assumption
    | progress cbn [bind] ].

Definition decoded (h old : header) : header :=
  match h_type h with
  | 0 => Hdr (h_src h) (h_dst h) (h_type h) (h_dur old) (h_seq old) (h_retry old) (h_flags h) (h_sector h)
  | 1 => Hdr (h_src h) (h_dst h) (h_type h) (h_dur old) (h_seq h) (h_retry h) (h_flags h) (h_sector old)
  | 2 => Hdr (h_src h) (h_dst h) (h_type h) (h_dur h) (h_seq h) (h_retry old) (h_flags h) (h_sector old)
  | _ => Hdr (h_src h) (h_dst h) (h_type h) (h_dur h) (h_seq h) (h_retry old) (h_flags old) (h_sector old)
  end.

Lemma deserialize_serialize h old rest :
  header_ok h -> legal_type (h_type h) ->
  deserialize old (serialize h ++ rest) = Some (decoded h old, rest).
Proof.
  intros [] L. destruct h as [src dst ty dur sq retry flags sector]. cbn [h_src h_dst h_type h_dur h_seq h_retry h_flags h_sector] in *.
  unfold serialize, deserialize, decoded.
  cbn [h_src h_dst h_type h_dur h_seq h_retry h_flags h_sector].
  legal_cases L; subst ty; cbn [Z.eqb Pos.eqb T_CTA T_RTS T_CTS T_ACK T_DATA];
    rewrite <- ?app_assoc; rd; reflexivity.
Qed.

Lemma roundtrip h old rest :
  header_ok h -> legal_type (h_type h) ->
  exists h', deserialize old (serialize h ++ rest) = Some (h', rest) /\
             frame_of h' = frame_of h /\ frame_of h <> None /\ uncarried_same (h_type h) old h'.
Proof.
  intros K L. exists (decoded h old). split. apply deserialize_serialize; assumption.
  destruct h as [src dst ty dur sq retry flags sector]. cbn [h_type] in L.
  unfold frame_of, decoded, uncarried_same. cbn [h_type].
  legal_cases L; subst ty; cbn; repeat split; discriminate.
Qed.

Lemma size_legal h : legal_type (h_type h) -> Z.of_nat (length (serialize h)) = get_size h.
Proof.
  intros L. unfold serialize, get_size. legal_cases L; rewrite H; reflexivity.
Qed.

Lemma size_illegal h : u8 (h_type h) -> ~ legal_type (h_type h) ->
  get_size h = 0 /\ serialize h = [h_type h] /\
  (forall old rest, exists h', deserialize old (serialize h ++ rest) = Some (h', rest)).
Proof.
  intros K L. unfold legal_type in L.
  assert (N : forall c, 0 <= c <= 4 -> (h_type h =? c) = false) by (intros; apply Z.eqb_neq; lia).
  unfold get_size, serialize.
  rewrite !N by (unfold T_CTA, T_RTS, T_CTS, T_ACK, T_DATA; lia).
  unfold w8. rewrite wrap8_id by assumption. repeat split.
  intros. unfold deserialize. cbn [app r8 bind].
  rewrite !N by (unfold T_CTA, T_RTS, T_CTS, T_ACK, T_DATA; lia). eexists. reflexivity.
Qed.

(** Reading any byte string: consumed bytes and untouched fields. *)
Lemma deserialize_any old b h' rest :
  deserialize old b = Some (h', rest) ->
  Z.of_nat (length b) - Z.of_nat (length rest) = (if (0 <=? h_type h') && (h_type h' <=? 4) then get_size h' else 1)
  /\ uncarried_same (h_type h') old h'.
Proof.
  unfold deserialize. destruct b as [|ty b]; [discriminate|]. cbn [r8 bind].
  destruct (Z.eqb_spec ty T_CTA) as [->|N0].
  { do 16 (destruct b as [|? b]; [discriminate|]). intros E. cbn in E. injection E as <- <-. split; [cbn [h_type length]; rewrite !Nat2Z.inj_succ; cbv [get_size h_type T_CTA T_RTS T_CTS T_ACK T_DATA Z.leb Z.eqb Z.compare Pos.compare Pos.compare_cont Pos.eqb andb]; lia|cbn; auto]. }
  destruct (Z.eqb_spec ty T_RTS) as [->|N1].
  { do 17 (destruct b as [|? b]; [discriminate|]). intros E. cbn in E. injection E as <- <-. split; [cbn [h_type length]; rewrite !Nat2Z.inj_succ; cbv [get_size h_type T_CTA T_RTS T_CTS T_ACK T_DATA Z.leb Z.eqb Z.compare Pos.compare Pos.compare_cont Pos.eqb andb]; lia|cbn; auto]. }
  destruct (Z.eqb_spec ty T_CTS) as [->|N2].
  { do 18 (destruct b as [|? b]; [discriminate|]). intros E. cbn in E. injection E as <- <-. split; [cbn [h_type length]; rewrite !Nat2Z.inj_succ; cbv [get_size h_type T_CTA T_RTS T_CTS T_ACK T_DATA Z.leb Z.eqb Z.compare Pos.compare Pos.compare_cont Pos.eqb andb]; lia|cbn; auto]. }
  destruct (Z.eqb_spec ty T_ACK) as [->|N3].
  { do 16 (destruct b as [|? b]; [discriminate|]). intros E. cbn in E. injection E as <- <-. split; [cbn [h_type length]; rewrite !Nat2Z.inj_succ; cbv [get_size h_type T_CTA T_RTS T_CTS T_ACK T_DATA Z.leb Z.eqb Z.compare Pos.compare Pos.compare_cont Pos.eqb andb]; lia|cbn; auto]. }
  destruct (Z.eqb_spec ty T_DATA) as [->|N4].
  { do 16 (destruct b as [|? b]; [discriminate|]). intros E. cbn in E. injection E as <- <-. split; [cbn [h_type length]; rewrite !Nat2Z.inj_succ; cbv [get_size h_type T_CTA T_RTS T_CTS T_ACK T_DATA Z.leb Z.eqb Z.compare Pos.compare Pos.compare_cont Pos.eqb andb]; lia|cbn; auto]. }
  intros E. injection E as <- <-. cbn [h_type length].
  unfold T_CTA, T_RTS, T_CTS, T_ACK, T_DATA in *.
  replace ((0 <=? ty) && (ty <=? 4)) with false
    by (symmetry; apply andb_false_iff; destruct (Z.leb_spec 0 ty); [right; apply Z.leb_gt; lia| left; reflexivity]).
  split; [lia|].
  unfold uncarried_same. destruct ty as [|p|p]; try (cbn; tauto).
  do 3 (destruct p as [p|p|]; try (cbn; tauto); try lia).
Qed.

Lemma prefix_free h1 h2 p1 p2 :
  header_ok h1 -> header_ok h2 -> legal_type (h_type h1) -> legal_type (h_type h2) ->
  serialize h1 ++ p1 = serialize h2 ++ p2 ->
  frame_of h1 = frame_of h2 /\ p1 = p2.
Proof.
  intros K1 K2 L1 L2 E.
  destruct (roundtrip h1 h1 p1 K1 L1) as (a & Ea & Fa & _ & _).
  destruct (roundtrip h2 h1 p2 K2 L2) as (b & Eb & Fb & _ & _).
  rewrite E in Ea. rewrite Ea in Eb. injection Eb as <- ->. split; congruence.
Qed.

Definition carries_duration (t : Z) : Prop := t = 2 \/ t = 3 \/ t = 4.

Lemma duration_wire h ns old rest :
  header_ok h -> carries_duration (h_type h) ->
  exists h', deserialize old (serialize (set_duration h ns) ++ rest) = Some (h', rest) /\
             get_duration h' = ns mod 65536.
Proof.
  intros K C.
  assert (L : legal_type (h_type (set_duration h ns))).
  { cbn. unfold legal_type. destruct C as [->|[->| ->]]; lia. }
  assert (K' : header_ok (set_duration h ns)).
  { destruct K; split; cbn; auto. apply wrap16_range. }
  rewrite deserialize_serialize by assumption.
  eexists. split. reflexivity.
  unfold decoded. cbn [h_type set_duration].
  destruct C as [->|[->| ->]]; reflexivity.
Qed.
