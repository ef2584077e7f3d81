(** Statistics of the MAC layers: the results file and the traced throughput. They have no effect on the protocol, so they are computed
    here from what the models of the MAC layers emit. *)
From Coq Require Import ZArith QArith List Bool.
From Verif Require Import Base HeaderModel SeqModel EnergyModel MacModel ApModel ClientModel.
Import ListNotations.
Open Scope Z_scope.

(** A line of the results file, without the id of the node: Psize, delay in nanoseconds, success. discard is the negation of success
    (thz-mac-macro.h:86-93, thz-mac-macro-client.h:87-94). *)
Record line := Line { ln_size : Z; ln_delay : Z; ln_ok : bool }.

Section Stat.
(** Packets: identity and size. *)
Context {F : Type} (fid fsize : F -> Z).

(** What concerns the statistics, with the time at which it happens. *)
Inductive sev :=
| SAcc (p : F) (t : Z)               (* Enqueue records the packet *)
| SRep (ok : bool) (p : F) (t : Z)   (* SendDataDone for a recorded packet *)
| SEmpty (t : Z)                     (* SendDataDone (true) finds the queue empty: m_result.clear () only *)
| SWrite.                            (* ResultsRecord *)

(** thz-mac-macro.h:73-82 and thz-mac-macro-client.h:73-83 Rec: RecSize is a uint16_t. *)
Record srec := Srec { sr_pkt : F; sr_size : Z; sr_time : Z }.
(** [st_all], [st_n]: m_throughputAll, m_ite. The throughput is an exact rational number here, a double there. *)
Record stat := Stat { st_rec : list srec; st_res : option line; st_all : Q; st_n : Z }.
(** Constructor: thz-mac-macro.cc:80-90, thz-mac-macro-client.cc:75-84. *)
Definition stat0 : stat := Stat [] None 0 0.

Inductive sout := OLine (l : line) | OTrace (x : Q) | OBad.

(** (RecSize - 53) * 8 / m_timeRec.GetSeconds (); ticks are fs. A time of 0 gives infinity or NaN there, 0 here. *)
Definition rate (bytes ticks : Z) : Q := (inject_Z (bytes * 8 * 10 ^ 15) / inject_Z ticks)%Q.

(** Enqueue: thz-mac-macro.cc:478-484, thz-mac-macro-client.cc:234-241. SendDataDone: thz-mac-macro.cc:842-920,
    thz-mac-macro-client.cc:702-764; m_result is cleared before the new result is put in. Psize is a uint16_t, RecSize - 53 an int.
    Records are found by the packet (the code has the record at hand), and not erased. ResultsRecord: thz-mac-macro.cc:1143-1165,
    thz-mac-macro-client.cc:1002-1020; Time::GetNanoSeconds truncates. *)
Definition sstep (st : stat) (x : sev) : stat * list sout :=
  match x with
  | SAcc p t => (Stat (st_rec st ++ [Srec p (wrap16 (fsize p)) t]) (st_res st) (st_all st) (st_n st), [])
  | SRep ok p t =>
    match find (fun r => fid (sr_pkt r) =? fid p) (st_rec st) with
    | None => (st, [])
    | Some r =>
      let l := Line (wrap16 (sr_size r - 53)) (if ok then Z.quot (t - sr_time r) nsec else 0) ok in
      if ok then
        let a := (st_all st + rate (sr_size r - 53) (t - sr_time r))%Q in
        (Stat (st_rec st) (Some l) a (st_n st + 1), [OTrace (a / inject_Z (st_n st + 1))%Q])
      else (Stat (st_rec st) (Some l) (st_all st) (st_n st), [])
    end
  | SEmpty _ => (Stat (st_rec st) None (st_all st) (st_n st), [])
  | SWrite => (st, match st_res st with Some l => [OLine l] | None => [OBad] end)
  end.
Fixpoint srun (st : stat) (g : list sev) : stat * list sout :=
  match g with
  | [] => (st, [])
  | x :: r => let '(st1, o1) := sstep st x in let '(st2, o2) := srun st1 r in (st2, o1 ++ o2)
  end.
(** The results file; the values of the trace source Throughput. *)
Definition lines_of (o : list sout) : list line := flat_map (fun x => match x with OLine l => [l] | _ => [] end) o.
Definition traced_of (o : list sout) : list Q := flat_map (fun x => match x with OTrace q => [q] | _ => [] end) o.
End Stat.
Arguments sev F : clear implicits.

(** The client. *)
Definition lstat1 (t : Z) (x : lout) : list (sev kframe) :=
  match x with LAcc p => [SAcc p t] | LRep ok p => [SRep ok p t] | _ => [] end.
Definition llog1 (c : lcfg) (e : lenv) (s : lst) (ev : levent) : list (sev kframe) :=
  let '(s', o) := lstep c e s ev in
  let k := match ev with LETimer i => option_map lt_kind (nth_error (l_timers s) i) | _ => None end in
  match k with Some LKResult => [SWrite] | _ => [] end ++
  flat_map (lstat1 (l_now s)) o ++
  match k with
  | Some (LKDone _ sq) => if existsb (fun r => kf_seq (lr_pkt r) =? sq) (l_rec s) && negb (l_res s') then [SEmpty (l_now s)] else []
  | _ => []
  end.
Fixpoint llog (c : lcfg) (s : lst) (h : list (lenv * levent)) : list (sev kframe) :=
  match h with
  | [] => []
  | (e, ev) :: r => llog1 c e s ev ++ llog c (fst (lstep c e s ev)) r
  end.
Definition lstats (c : lcfg) (q0 : Z) (h : list (lenv * levent)) : list sout := snd (srun kf_id kf_size stat0 (llog c (linit q0) h)).

(** The macro MAC: broadcasts are reported at the end of their transmission (thz-mac-macro.cc:828). ResultsRecord is scheduled (853) even
    if the queue is empty. *)
Definition mstat1 (t : Z) (x : mout) : list (sev mframe) :=
  match x with OAcc p => [SAcc p t] | ORep ok p => [SRep ok p t] | _ => [] end.
Definition m_results (s : mst) : nat := length (filter (fun t => match mt_kind t with MKResult => true | _ => false end) (m_timers s)).
Definition mlog1 (c : mcfg) (e : menv) (s : mst) (ev : mevent) : list (sev mframe) :=
  let s' := fst (mstep c e s ev) in
  (match ev with
   | ETimer i => match nth_error (m_timers s) i with Some t => match mt_kind t with MKResult => [SWrite] | _ => [] end | None => [] end
   | _ => []
   end) ++ flat_map (mstat1 (m_now s)) (snd (mstep c e s ev)) ++
  (if (m_results s <? m_results s')%nat && negb (m_res s') then [SEmpty (m_now s)] else []).
Fixpoint mlog (c : mcfg) (s : mst) (h : list (menv * mevent)) : list (sev mframe) :=
  match h with
  | [] => []
  | (e, ev) :: r => mlog1 c e s ev ++ mlog c (fst (mstep c e s ev)) r
  end.
Definition mstats (c : mcfg) (q0 : Z) (h : list (menv * mevent)) : list sout := snd (srun mf_id mf_size stat0 (mlog c (minit q0) h)).
