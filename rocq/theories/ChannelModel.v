(** Model of model/thz-channel.cc: class THzChannel.

    PHYs are identified by numbers. Every transmission has a number (its position in [c_log]);
    the packet copy made for device index [j] (thz-channel.cc:166) is a new object, named by the
    pair of the two. Received powers are computed elsewhere and not part of this model; the
    propagation delays are inputs. *)
From Coq Require Import ZArith List Bool.
From Verif Require Import Base EnergyModel NanoModel.
Import ListNotations.
Open Scope Z_scope.

(** thz-channel.h:65-72. [n_k] and [n_j] name the packet. *)
Record nentry := NEntry { n_k : nat; n_j : nat; n_phy : Z; n_dur : Z }.

Inductive cev :=
| ESendDone (k : nat) (phy : Z)
| ERecv (j : nat) (ne : nentry)
| ERecvDone (j : nat) (ne : nentry)
| EDelete (ne : nentry).

(** Ghost record of a transmission: sender, duration, time, devices and delays at that time. *)
Record txrec := TxRec { t_phy : Z; t_dur : Z; t_time : Z; t_devs : list Z; t_delay : nat -> Z }.

Record chan := Chan {
  c_now : Z;
  c_devs : list Z;                 (* m_devList (the PHYs) *)
  c_noise : list nentry;           (* m_noiseEntry *)
  c_pend : list (Z * cev);         (* scheduled events with their times *)
  c_log : list txrec }.

Inductive cin :=
| CAdd (phy : Z)                            (* AddDevice *)
| CSend (phy dur : Z) (delay : nat -> Z)    (* SendPacket; delay to each device index *)
| CFire (i : nat)                           (* the i-th scheduled event runs *)
| CTick (t : Z)
| CClear.                                   (* Clear; called when any attached device is disposed of *)

Inductive cout :=
| CStart (k j : nat) (phy : Z) (t : Z)      (* phy->ReceivePacket *)
| CEnd (k j : nat) (phy : Z) (t : Z)        (* phy->ReceivePacketDone *)
| CSent (k : nat) (phy : Z) (t : Z)         (* phy->SendPacketDone *)
| CUB.

(** thz-channel.cc:136-184: one event per device that is not the sender. *)
Fixpoint announce (now : Z) (k : nat) (phy dur : Z) (delay : nat -> Z) (j : nat) (devs : list Z) : list (Z * cev) :=
  match devs with
  | [] => []
  | d :: r =>
    (if phy =? d then [] else [(now + delay j, ERecv j (NEntry k j d dur))])
    ++ announce now k phy dur delay (S j) r
  end.

(** SendPacket, thz-channel.cc:107-187. If the sender is not attached and there is another
    device, GetDelay dereferences a null pointer. *)
Definition chan_send (phy dur : Z) (delay : nat -> Z) (s : chan) : chan * list cout :=
  if negb (existsb (Z.eqb phy) (c_devs s)) && negb (match c_devs s with [] => true | _ => false end) then (s, [CUB])
  else
    let k := length (c_log s) in
    (Chan (c_now s) (c_devs s) (c_noise s)
       (c_pend s ++ (c_now s + dur, ESendDone k phy) :: announce (c_now s) k phy dur delay 0 (c_devs s))
       (c_log s ++ [TxRec phy dur (c_now s) (c_devs s) delay]), []).

Definition same_entry (a b : nentry) : bool :=
  (Nat.eqb (n_k a) (n_k b) && Nat.eqb (n_j a) (n_j b)) && (n_phy a =? n_phy b).

(** 189-231. m_devList[i] is undefined behaviour when there is no such device. *)
Definition chan_run (e : cev) (s : chan) : chan * list cout :=
  match e with
  | ESendDone k phy => (s, [CSent k phy (c_now s)])
  | ERecv j ne =>
    match nth_error (c_devs s) j with
    | Some d => (Chan (c_now s) (c_devs s) (c_noise s ++ [ne]) (c_pend s ++ [(c_now s + n_dur ne, ERecvDone j ne)]) (c_log s),
                 [CStart (n_k ne) (n_j ne) d (c_now s)])
    | None => (s, [CUB])
    end
  | ERecvDone j ne =>
    match nth_error (c_devs s) j with
    | Some d => (Chan (c_now s) (c_devs s) (c_noise s) (c_pend s ++ [(c_now s, EDelete ne)]) (c_log s),
                 [CEnd (n_k ne) (n_j ne) d (c_now s)])
    | None => (s, [CUB])
    end
  | EDelete ne => (Chan (c_now s) (c_devs s) (erase_first (fun x => same_entry x ne) (c_noise s)) (c_pend s) (c_log s), [])
  end.

Definition chan_step (s : chan) (i : cin) : chan * list cout :=
  match i with
  | CAdd phy => (Chan (c_now s) (c_devs s ++ [phy]) (c_noise s) (c_pend s) (c_log s), [])
  | CSend phy dur delay => chan_send phy dur delay s
  | CFire i =>
    match nth_error (c_pend s) i with
    | Some (_, e) => chan_run e (Chan (c_now s) (c_devs s) (c_noise s) (remove_nth i (c_pend s)) (c_log s))
    | None => (s, [])
    end
  | CTick t => (Chan t (c_devs s) (c_noise s) (c_pend s) (c_log s), [])
  | CClear => (Chan (c_now s) [] [] (c_pend s) (c_log s), [])
  end.
Fixpoint chan_steps (s : chan) (l : list cin) : chan * list cout :=
  match l with
  | [] => (s, [])
  | i :: r => let '(s1, o1) := chan_step s i in let '(s2, o2) := chan_steps s1 r in (s2, o1 ++ o2)
  end.
Definition chan0 : chan := Chan 0 [] [] [] [].

(** Real time: events run exactly at their time, in any order among those of equal time. *)
Definition ctimely (s : chan) (i : cin) : bool :=
  match i with
  | CTick t => (c_now s <=? t) && forallb (fun e => t <=? fst e) (c_pend s)
  | CFire i => match nth_error (c_pend s) i with Some (t, _) => t =? c_now s | None => false end
  | _ => true
  end.
Fixpoint ctimely_run (s : chan) (l : list cin) : bool :=
  match l with
  | [] => true
  | i :: r => ctimely s i && ctimely_run (fst (chan_step s i)) r
  end.
