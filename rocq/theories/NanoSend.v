(** Where the frames a nano MAC transmits come from. *)
From Coq Require Import ZArith List Lia Bool Sorting.Sorted.
From Verif Require Import Base HeaderModel SeqModel EnergyModel NanoModel NanoProofs NanoSpec NanoOut
  NanoRetry NanoOrder NanoTrace.
Import ListNotations.
Open Scope Z_scope.

Inductive send_class (c : config) (tr : list out) (e : event) (o : list out) (f : frame) : Prop :=
| SDRts p : c_rts c = true -> acc p (tr ++ o) -> f_dst p <> bcast ->
    f = ctrl T_RTS (c_addr c) (f_dst p) (f_seq p) -> send_class c tr e o f
| SDData : acc f (tr ++ o) -> c_rts c = false \/ f_dst f = bcast -> send_class c tr e o f
| SDCts g : e = EvRecv g true -> f_type g = T_CTS -> f_dst g = c_addr c -> acc f (tr ++ o) ->
    f_dst f = f_src g -> f_seq f = f_seq g -> send_class c tr e o f
| SDReply g : e = EvRecv g true -> f_type g = T_RTS -> f_dst g = c_addr c ->
    f = ctrl T_CTS (c_addr c) (f_src g) (f_seq g) -> send_class c tr e o f
| SDAck g : e = EvRecv g true -> f_type g = T_DATA -> f_dst g = c_addr c -> f_dst g <> bcast ->
    f = ctrl T_ACK (c_addr c) (f_src g) (f_seq g) -> send_class c tr e o f.

Lemma first_class c tr e o p f : acc p (tr ++ o) -> f = first_frame c p -> send_class c tr e o f.
Proof.
  intros A ->. unfold first_frame. destruct (is_rts c p) eqn:R.
  - apply is_rts_spec in R. eapply SDRts; eauto; tauto.
  - apply SDData; auto. unfold is_rts in R. apply andb_false_iff in R.
    destruct R as [R|R]; auto. apply negb_false_iff, Z.eqb_eq in R. auto.
Qed.

Lemma send_cases c s tr e f : config_ok c -> W c s tr -> In (OSend f) (snd (step c s e)) ->
  send_class c tr e (snd (step c s e)) f.
Proof.
  intros C H I. destruct e; cbn [step] in *.
  - destruct (enqueue_cases c size dst s) as [[_ E]|[[_ [_ E]]|[_ [Q E]]]]; rewrite E in *; cbn [snd] in *.
    1,2: exfalso; destruct I as [|[]]; discriminate.
    cbv zeta in *.
    destruct (behind _ _ _); cbn [snd] in *; [exfalso; destruct I as [|[|[]]]; discriminate|].
    destruct I as [X|X]; [discriminate|]. apply in_app_or in X. destruct X as [X|[X|[]]]; [|discriminate].
    pose proof (W_accept c s tr size dst C H Q) as W2. cbv zeta in W2.
    destruct (tx_first_send c _ _ f W2 X) as [p [PI [PT PF]]]. eapply first_class; [|exact PF].
    rewrite (w_queue _ _ _ _ _ _ _ _ _ _ W2) in PI. apply in_map_iff in PI. destruct PI as [t [<- T]].
    pose proof (w_tx _ _ _ _ _ _ _ _ _ _ W2 t T) as A. apply in_app_or in A.
    apply in_or_app. destruct A as [A|[A|[]]]; auto. right. left. exact A.
  - unfold receive in *. destruct ok; cbn [negb] in *; [|destruct I].
    destruct (Z.eqb_spec (f_type f0) T_RTS) as [TY|_].
    { unfold receive_rts in I. rewrite booking_eq in I. cbv zeta in I. cbn [snd] in I.
      destruct I as [I|I]; [discriminate|].
      destruct (Z.eqb_spec (f_dst f0) (c_addr c)) as [D|D]; [|destruct I].
      rewrite booking_eq in I. cbv zeta in I. cbn [snd] in I.
      destruct I as [I|I]; [discriminate|]. destruct (fst (book _ _ (2 * _) _)); [|destruct I].
      rewrite seqa_eq in I. cbn [snd app] in I. destruct I as [I|[]]. injection I as <-.
      eapply SDReply; eauto. }
    destruct (Z.eqb_spec (f_type f0) T_CTS) as [TY|_].
    { set (oo := snd (receive_cts c f0 s)) in *. unfold oo, receive_cts in I.
      destruct (Z.eqb_spec (f_dst f0) (c_addr c)) as [D|D]; [|destruct I].
      rewrite seqa_eq in I. cbn [snd] in I. apply in_app_or in I. destruct I as [I|I].
      - exfalso. destruct (find _ _) as [[? ?]|] in I; destruct I.
      - revert I. set (r := fst _).
        assert (s_tx r = s_tx s) as R3 by (unfold r; destruct (find _ (s_cts s)) as [[? ?]|]; reflexivity).
        rewrite R3. destruct (find _ (s_tx s)) as [t|] eqn:F; [|intros []].
        rewrite send_data_out. intros [I|[]]. injection I as <-. apply find_some in F. destruct F as [F E].
        apply andb_true_iff in E. destruct E as [E1 E2]. apply Z.eqb_eq in E1. apply Z.eqb_eq in E2.
        eapply SDCts; eauto. apply acc_app. apply (w_tx _ _ _ _ _ _ _ _ _ _ H t F). }
    destruct (Z.eqb_spec (f_type f0) T_DATA).
    { apply receive_data_send in I. destruct I as [A [B ->]]. eapply SDAck; eauto. }
    exfalso. destruct (f_type f0 =? T_ACK); [|destruct I].
    destruct (receive_ack_cases c f0 s) as [[_ [m [u [q [F [X [J O]]]]]]]|E].
    + rewrite O in I. apply in_map_iff in I. destruct I as [x [E _]]. discriminate.
    + rewrite E in I. destruct I.
  - destruct (nth_error (s_timers s) i) as [t|] eqn:N; [|destruct I].
    apply nth_error_In in N. pose proof (w_tm _ _ _ _ _ _ _ _ _ _ H t N) as TK.
    destruct (tm_kind t); cbn [fire tm_ok] in *.
    + apply check_send in I. eapply first_class; [|exact I]. apply acc_app. auto.
    + exfalso. unfold cts_timeout in I. rewrite (timeout_eq c (f_seq p) (Some p) draw (OTimeout (f_seq p))
          (fun s => set_cts (erase_first (fun x => fst x =? f_seq p) (s_cts s)) s)) in I.
      cbv zeta in I. cbn [snd] in I. destruct I as [I|[I|I]]; try discriminate. eapply retry_no_send, I.
    + exfalso. unfold ack_timeout in I. rewrite (timeout_eq c sq None draw (OTimeout sq)
          (fun s => set_ack (erase_first (fun x => fst (fst x) =? sq) (s_ack s)) s)) in I.
      cbv zeta in I. cbn [snd] in I. destruct I as [I|[I|I]]; try discriminate. eapply retry_no_send, I.
    + destruct I as [I|[]]. discriminate.
  - destruct I.
  - destruct (tx_first_send c s tr f H I) as [p [PI [PT PF]]]. eapply first_class; [|exact PF].
    rewrite (w_queue _ _ _ _ _ _ _ _ _ _ H) in PI. apply in_map_iff in PI. destruct PI as [t [<- T]].
    apply acc_app. apply (w_tx _ _ _ _ _ _ _ _ _ _ H t T).
  - destruct I.
Qed.
