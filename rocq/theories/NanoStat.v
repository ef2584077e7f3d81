(** Statistics of the nano MAC: the traced throughput. It has no effect on the protocol, so it is computed here from what the model of the
    MAC emits. *)
From Coq Require Import ZArith QArith List Bool.
From Verif Require Import Base HeaderModel SeqModel EnergyModel NanoModel.
Import ListNotations.
Open Scope Z_scope.

(** Effects with the time at which they happen. *)
Fixpoint timed (c : config) (s : state) (l : list event) : list (Z * out) :=
  match l with
  | [] => []
  | e :: r => map (pair (s_now s)) (snd (step c s e)) ++ timed c (fst (step c s e)) r
  end.

(** [ns_start]: the tstart of the entries of m_pktTx (thz-mac-nano.h:74-83). [ns_all], [ns_n]: m_throughputAll, m_ite. The throughput is an
    exact rational number here, a double there. *)
Record nstat := Nstat { ns_start : list (frame * Z); ns_all : Q; ns_n : Z }.
(** Constructor: thz-mac-nano.cc:57-80. *)
Definition nstat0 : nstat := Nstat [] 0 0.

(** it->packet->GetSize () * 8 / m_timeRec.GetSeconds (), thz-mac-nano.cc:547; ticks are fs. The packet includes its MAC header (263). A time of
    0 gives infinity there, 0 here. *)
Definition nrate (bytes ticks : Z) : Q := (inject_Z (bytes * 8 * 10 ^ 15) / inject_Z ticks)%Q.

(** Enqueue sets tstart (266-271, 286); SendDataDone (535-551) traces the mean. Entries are found by the packet (the code has the entry at
    hand), and not erased. *)
Definition nsstep (st : nstat) (x : Z * out) : nstat * list Q :=
  match x with
  | (t, OAccept p) => (Nstat (ns_start st ++ [(p, t)]) (ns_all st) (ns_n st), [])
  | (t, ODone true p) =>
    match find (fun r => f_body (fst r) =? f_body p) (ns_start st) with
    | None => (st, [])
    | Some (q, t0) =>
      let a := (ns_all st + nrate (f_size q) (t - t0))%Q in
      (Nstat (ns_start st) a (ns_n st + 1), [(a / inject_Z (ns_n st + 1))%Q])
    end
  | _ => (st, [])
  end.
Fixpoint nsrun (st : nstat) (g : list (Z * out)) : nstat * list Q :=
  match g with
  | [] => (st, [])
  | x :: r => let '(st1, o1) := nsstep st x in let '(st2, o2) := nsrun st1 r in (st2, o1 ++ o2)
  end.
(** The values of the trace source Throughput. *)
Definition ntraced (c : config) (e0 : Z) (l : list event) : list Q := snd (nsrun nstat0 (timed c (init e0) l)).
