(** Several macro MACs that hear one another. *)
From Coq Require Import ZArith List Lia Bool.
From Verif Require Import Base HeaderModel SeqModel SeqProofs EnergyModel MacModel MacSpec MacProofs MacAcct MacSteps MacInv MacResp.
Import ListNotations.
Open Scope Z_scope.

(** One node: events so far, state, effects so far. *)
Record mnode := Mnode { n_hist : list mevent; n_st : mst; n_out : list mout }.
Definition mput (N : addr -> mnode) (a : addr) (n : mnode) : addr -> mnode := fun x => if x =? a then n else N x.

(** What a receiver finds in the frame [g]: the same, but RTS carries no duration (thz-mac-header.cc:223-229),
    so that the receiver reads uninitialised memory. *)
Definition as_read (g f : mframe) : Prop :=
  f = g \/ mf_type g = T_RTS /\ exists u, f = Mframe (mf_type g) (mf_src g) (mf_dst g) (mf_seq g) u (mf_size g) (mf_id g).

(** Executions of the network. Node [a] has the configuration [cfg a]. Frames are received without
    error only if some node has sent them; they may be lost, arrive late and more than once. *)
Inductive nreach (cfg : addr -> mcfg) (q0 : addr -> Z) : (addr -> mnode) -> Prop :=
| NR0 : nreach cfg q0 (fun a => Mnode [] (minit (q0 a)) [])
| NR1 N a e ev : nreach cfg q0 N ->
    (forall f, ev = ERxEnd f true -> exists b g, In g (snd_of (n_out (N b))) /\ as_read g f) ->
    nreach cfg q0 (mput N a (Mnode (n_hist (N a) ++ [ev]) (fst (mstep (cfg a) e (n_st (N a)) ev))
                                   (n_out (N a) ++ snd (mstep (cfg a) e (n_st (N a)) ev)))).

Lemma nreach_node cfg q0 N a : nreach cfg q0 N -> mreach (cfg a) (q0 a) (n_hist (N a)) (n_st (N a)) (n_out (N a)).
Proof.
  induction 1 as [|N b e ev H IH F]; [constructor|]. unfold mput. destruct (Z.eqb_spec a b) as [->|]; auto. cbn [n_hist n_st n_out]. constructor. auto.
Qed.

Lemma nreach_heard cfg q0 N a f : nreach cfg q0 N -> In f (rcv_of (n_hist (N a))) -> mf_type f <> T_RTS -> exists b, In f (snd_of (n_out (N b))).
Proof.
  intros H. revert a f. induction H as [|N b e ev H IH F]; intros a f I TY; [destruct I|].
  assert (X : exists d, In f (snd_of (n_out (N d)))).
  { revert I. unfold mput. destruct (a =? b); [|intros I; apply (IH a f I TY)]. cbn [n_hist]. rewrite rcv_app. intros I. apply in_app_or in I. destruct I as [I|I]; [eapply IH; eauto|].
    destruct ev as [| | |g [|]| |]; cbn in I; try contradiction. destruct I as [->|[]]. destruct (F f eq_refl) as [d [x [X1 [->|[X2 [u ->]]]]]]; [eauto|]. contradiction. }
  destruct X as [d D]. exists d. unfold mput. destruct (Z.eqb_spec d b) as [->|]; auto. cbn [n_out]. rewrite snd_app. apply in_or_app. auto.
Qed.

Lemma net_success cfg q0 N a p : (forall x, mc_addr (cfg x) = x) -> (forall x, u16 (q0 x)) -> nreach cfg q0 N ->
  Z.of_nat (length (acc_of (n_out (N a)))) <= 65536 -> In p (rep_of true (n_out (N a))) -> mf_dst p <> bcast ->
  In p (rcv_of (n_hist (N (mf_dst p)))) /\
  (In p (up_of (n_out (N (mf_dst p)))) \/
   exists g, In g (up_of (n_out (N (mf_dst p)))) /\ mf_src g = a /\ mf_seq p < mf_seq g).
Proof.
  intros AD U R L P D. pose proof (fun x => nreach_node cfg q0 N x R) as RN.
  pose proof (fun x => acct_reach _ _ _ _ _ (U x) (RN x)) as A. pose proof (fun x => gen_reach _ _ _ _ _ (RN x)) as G. pose proof (fun x => filt_reach _ _ _ _ _ (U x) (RN x)) as F.
  (* data of [a] that somebody sent with the number of a packet of [a] is that packet *)
  assert (UQ : forall x d, In d (rcv_of (n_hist (N x))) -> mf_type d = T_DATA -> mf_src d = a -> mf_seq d = mf_seq p -> In p (acc_of (n_out (N a))) -> d = p).
  { intros x d I TY SR SQ PA. destruct (nreach_heard _ _ _ _ _ R I ltac:(rewrite TY; discriminate)) as [y Y]. destruct (g_snd _ _ _ _ (G y) d Y) as [Z|[_ Z]]; [|contradiction].
    destruct (ac_data _ _ _ _ (A y) d Z) as [_ Z2]. rewrite AD in Z2. assert (y = a) as -> by congruence.
    eapply (unique_num _ _ _ _ d p (A a)); eauto. }
  assert (PA : In p (acc_of (n_out (N a)))).
  { eapply Permutation.Permutation_in; [apply Permutation.Permutation_sym, (ac_perm _ _ _ _ (A a))|]. apply in_or_app. auto. }
  destruct (g_ok _ _ _ _ (G a) p P) as [p' [P1 [P2 [P3 P4]]]].
  assert (p' = p) as -> by (eapply (unique_num _ _ _ _ p' p (A a)); eauto).
  destruct (P4 D) as [f [F1 [F2 [F3 F4]]]]. rewrite AD in F3.
  destruct (nreach_heard _ _ _ _ _ R F1 ltac:(rewrite F2; discriminate)) as [b B]. destruct (f_sent _ _ _ _ (F b) f B F2) as [[m [M1 M2]] [d [D1 [D2 [D3 [D4 D5]]]]]].
  assert (d = p) as -> by (eapply UQ; eauto; congruence).
  rewrite AD in D3. rewrite D3. split; auto.
  pose proof (f_look _ _ _ _ (F b) a) as LK. rewrite F3 in M1. rewrite M1 in LK. destruct LK as [LK _].
  unfold nums in LK. apply in_map_iff in LK. destruct LK as [g [G1 G2]]. apply filter_In in G2. destruct G2 as [G2 G3]. apply Z.eqb_eq in G3.
  destruct (Z.eq_dec m (mf_seq p)) as [E|E].
  - left. destruct (f_up _ _ _ _ (F b) g G2) as [H1 [H2 _]]. assert (g = p) as -> by (eapply UQ; eauto; congruence). auto.
  - right. exists g. repeat split; auto. lia.
Qed.
