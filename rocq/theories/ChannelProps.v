(** Properties C34, C35 and C48: the channel. *)
From Coq Require Import ZArith List Lia Bool.
From Verif Require Import Base ChannelModel ChannelSpec ChannelProofs.
Import ListNotations.
Open Scope Z_scope.

(** ** C34: each transmission is announced exactly once to every other device *)

(** Each accepted SendPacket enters the log with its sender, duration, time and devices; so the
    theorem below speaks about every transmission. *)
Theorem C34_logged : forall s phy dur delay, In phy (c_devs s) ->
  c_log (fst (chan_step s (CSend phy dur delay))) = c_log s ++ [TxRec phy dur (c_now s) (c_devs s) delay].
Proof.
  intros s phy dur delay I. cbn [chan_step]. unfold chan_send.
  replace (existsb (Z.eqb phy) (c_devs s)) with true; [reflexivity|].
  symmetry. apply existsb_exists. exists phy. split; auto. apply Z.eqb_refl.
Qed.
Print Assumptions C34_logged.

(** [target r j] is 1 if device [j] was attached and not the sender, 0 otherwise. At any moment
    no notification was given twice; when nothing is pending, all were given. Every
    notification comes at the right time and goes to the right PHY, never to the sender. *)
Theorem C34_announced_once : forall l, ctimely_run chan0 l = true -> ~ In CClear l ->
  let s := fst (chan_steps chan0 l) in let tr := snd (chan_steps chan0 l) in
  (forall k r, nth_error (c_log s) k = Some r ->
     (forall j, (cnt (out_end k j) tr <= cnt (out_start k j) tr <= target r j)%nat) /\
     (cnt (out_sent k) tr <= 1)%nat /\
     (c_pend s = [] -> cnt (out_sent k) tr = 1%nat /\
        forall j, cnt (out_start k j) tr = target r j /\ cnt (out_end k j) tr = target r j)) /\
  (forall k j d t, In (CStart k j d t) tr -> exists r, nth_error (c_log s) k = Some r /\
     nth_error (t_devs r) j = Some d /\ d <> t_phy r /\ t = t_time r + t_delay r j) /\
  (forall k j d t, In (CEnd k j d t) tr -> exists r, nth_error (c_log s) k = Some r /\
     nth_error (t_devs r) j = Some d /\ d <> t_phy r /\ t = t_time r + t_delay r j + t_dur r) /\
  (forall k p t, In (CSent k p t) tr -> exists r, nth_error (c_log s) k = Some r /\
     p = t_phy r /\ t = t_time r + t_dur r).
Proof.
  intros l T NC s tr. pose proof (J_run l chan0 [] J0 T NC) as H. fold s tr in H. cbn [app] in H.
  split; [|split; [|split]].
  - intros k r K.
    assert (W : forall j, wants (c_log s) k j = target r j) by (intros j; unfold wants; rewrite K; auto).
    assert (KN : known (c_log s) k = 1%nat) by (unfold known; rewrite K; auto).
    split; [|split].
    + intros j. pose proof (j_start _ _ H k j). pose proof (j_end _ _ H k j). rewrite W in *. lia.
    + pose proof (j_sent _ _ H k). lia.
    + intros P. split.
      * pose proof (j_sent _ _ H k) as E. rewrite P in E. change (cnt (p_sent k) []) with 0%nat in E. lia.
      * intros j. pose proof (j_start _ _ H k j) as E1. pose proof (j_end _ _ H k j) as E2. rewrite P in E1, E2.
        change (cnt (p_recv k j) []) with 0%nat in E1. change (cnt (p_done k j) []) with 0%nat in E2. rewrite W in *. lia.
  - intros k j d t I. apply (j_out _ _ H _ I).
  - intros k j d t I. apply (j_out _ _ H _ I).
  - intros k p t I. apply (j_out _ _ H _ I).
Qed.
Print Assumptions C34_announced_once.

(** Nothing undefined happens if every sender was attached before. *)
Theorem C34_safe : forall l, ctimely_run chan0 l = true -> ~ In CClear l ->
  (forall l1 p d f l2, l = l1 ++ CSend p d f :: l2 -> In (CAdd p) l1) ->
  ~ In CUB (snd (chan_steps chan0 l)).
Proof.
  intros l T NC A. apply (safe_run l chan0 [] J0 T NC). intros l1 p d f l2 E. right. eauto.
Qed.
Print Assumptions C34_safe.

(** Three devices, two overlapping transmissions. *)
Definition chan_sample : list cin :=
  [CAdd 10; CAdd 20; CAdd 30; CSend 20 100 (fun j => Z.of_nat j + 1); CTick 1; CFire 1; CSend 10 50 (fun _ => 2);
   CTick 3; CFire 1; CFire 3; CFire 3].
Example C34_example : ctimely_run chan0 chan_sample = true /\ ~ In CClear chan_sample /\
  snd (chan_steps chan0 chan_sample) = [CStart 0 0 10 1; CStart 0 2 30 3; CStart 1 1 20 3; CStart 1 2 30 3].
Proof.
  split; [vm_compute; reflexivity|]. split; [|vm_compute; reflexivity].
  cbn. intros H. repeat destruct H as [H|H]; try discriminate. exact H.
Qed.

(** ** C35: the list of signals in flight is exact *)
Theorem C35_noise_exact : forall l, ctimely_run chan0 l = true -> ~ In CClear l ->
  let s := fst (chan_steps chan0 l) in let tr := snd (chan_steps chan0 l) in
  (* an entry for each reception that has started and whose removal is still to come *)
  (forall k j, cnt (is_kj k j) (c_noise s) =
     (cnt (p_done k j) (c_pend s) + cnt (p_del k j) (c_pend s))%nat) /\
  (forall k j, (cnt (out_end k j) tr < cnt (out_start k j) tr)%nat -> (cnt (is_kj k j) (c_noise s) >= 1)%nat) /\
  (* with the right receiver and duration *)
  (forall ne, In ne (c_noise s) -> exists r, nth_error (c_log s) (n_k ne) = Some r /\
     nth_error (t_devs r) (n_j ne) = Some (n_phy ne) /\ n_dur ne = t_dur r) /\
  (c_pend s = [] -> c_noise s = []).
Proof.
  intros l T NC s tr. pose proof (J_run l chan0 [] J0 T NC) as H. fold s tr in H. cbn [app] in H.
  split; [apply (j_list _ _ H)|]. split; [|split].
  - intros k j L. pose proof (j_list _ _ H k j). pose proof (j_end _ _ H k j). lia.
  - intros ne I. destruct (j_noise _ _ H ne I) as [r [A [B [_ D]]]]. eauto.
  - intros P. destruct (c_noise s) as [|ne n] eqn:N; auto. exfalso.
    pose proof (j_list _ _ H (n_k ne) (n_j ne)) as L. rewrite P, N, cnt_cons in L.
    rewrite (proj2 (is_kj_spec _ _ ne)) in L by auto. cbn in L. lia.
Qed.
Print Assumptions C35_noise_exact.

Example C35_example : map (fun ne => (n_k ne, n_j ne)) (c_noise (fst (chan_steps chan0 chan_sample))) =
  [(0, 0); (0, 2); (1, 1); (1, 2)]%nat.
Proof. vm_compute. reflexivity. Qed.

(** ** C48: disposing of one device leaves the others connected *)

(** THzNetDevice::DoDispose calls Clear (thz-net-device.cc:60-83, 86-90), which calls
    THzChannel::Clear: the event CClear. Full statement: no undefined behaviour follows. *)
Definition C48_full := forall l, ctimely_run chan0 l = true ->
  (forall l1 p d f l2, l = l1 ++ CSend p d f :: l2 -> In (CAdd p) l1) ->
  ~ In CUB (snd (chan_steps chan0 l)).

(** A packet is on its way when some third device is disposed of. *)
Theorem C48_dispose_refuted : ~ C48_full.
Proof.
  intros F. apply (F [CAdd 10; CAdd 20; CAdd 30; CSend 10 50 (fun _ => 2); CClear; CTick 2; CFire 1]).
  - vm_compute. reflexivity.
  - intros l1 p d f l2 E.
    destruct l1 as [|a1 l1]; [discriminate|]. injection E as <- E.
    destruct l1 as [|a1 l1]; [discriminate|]. injection E as <- E.
    destruct l1 as [|a1 l1]; [discriminate|]. injection E as <- E.
    destruct l1 as [|a1 l1]; [injection E as <- _ _ _; left; auto|]. injection E as <- E.
    do 3 (destruct l1 as [|a1 l1]; [discriminate|]; injection E as <- E). destruct l1; discriminate.
  - vm_compute. auto.
Qed.
Print Assumptions C48_dispose_refuted.

(** What holds: without disposal during the simulation there is no undefined behaviour. *)
Theorem C48_dispose_partial : forall l, ctimely_run chan0 l = true -> ~ In CClear l ->
  (forall l1 p d f l2, l = l1 ++ CSend p d f :: l2 -> In (CAdd p) l1) ->
  ~ In CUB (snd (chan_steps chan0 l)).
Proof. exact C34_safe. Qed.
Print Assumptions C48_dispose_partial.

(** The run of the refutation without the disposal: the packet arrives at both other devices. *)
Example C48_example : let l := [CAdd 10; CAdd 20; CAdd 30; CSend 10 50 (fun _ => 2); CTick 2; CFire 1; CFire 1] in
  ctimely_run chan0 l = true /\ ~ In CUB (snd (chan_steps chan0 l)) /\ length (snd (chan_steps chan0 l)) = 2%nat.
Proof. split; [vm_compute; reflexivity|]. split; [vm_compute; intuition discriminate|vm_compute; reflexivity]. Qed.
