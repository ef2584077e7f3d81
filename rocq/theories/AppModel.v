(** Models of the applications: model/thz-udp-client.cc, model/thz-udp-trace-client.cc,
    model/thz-udp-server.cc and model/traffic-generator.cc. The socket is an environment that
    accepts or refuses each datagram. *)
From Coq Require Import ZArith List Bool.
From Verif Require Import Base.
Import ListNotations.
Open Scope Z_scope.

(** ** THzUdpClient *)

(** m_sent (uint32_t) and whether m_sendEvent is pending. *)
Record ucl := Ucl { u_sent : Z; u_pending : bool }.
Inductive ucev := UStart | UFire (ok : bool) | UStop.
(** A datagram with sequence number [seq], accepted by the socket or not. *)
Record udg := Udg { d_seq : Z; d_ok : bool }.

(** StartApplication 124-164, StopApplication 166-171, Send 173-212 (thz-udp-client.cc). The
    random delays are not modelled: [UFire] is the pending event running at any later time. *)
Definition ucl_step (s : ucl) (e : ucev) : ucl * list udg :=
  match e with
  | UStart => (Ucl (u_sent s) true, [])
  | UStop => (Ucl (u_sent s) false, [])
  | UFire ok => if u_pending s then (Ucl (u_sent s) ok, [Udg (u_sent s) ok]) else (s, [])
  end.
Fixpoint ucl_run (s : ucl) (l : list ucev) : ucl * list udg :=
  match l with
  | [] => (s, [])
  | e :: r => let '(s1, o1) := ucl_step s e in let '(s2, o2) := ucl_run s1 r in (s2, o1 ++ o2)
  end.
Definition ucl0 : ucl := Ucl 0 false.

(** ** THzUdpTraceClient *)

Record tentry := TEntry { te_time : Z; te_size : Z }.       (* timeToSend, packetSize (uint16_t) *)
(** A line of a trace file: frame type 'B' or not, time, size. *)
Record tline := TLine { tl_b : bool; tl_time : Z; tl_size : Z }.

(** The loops of LoadTrace (201-216) and of LoadDefaultTrace (226-240); uint32_t arithmetic. *)
Fixpoint load (prev : Z) (l : list tline) : list tentry :=
  match l with
  | [] => []
  | x :: r =>
    if tl_b x then TEntry 0 (tl_size x) :: load prev r
    else TEntry ((tl_time x - prev) mod 2 ^ 32) (tl_size x) :: load (tl_time x) r
  end.

(** g_defaultEntries, 52-61. *)
Definition default_lines : list tline :=
  [TLine false 0 534; TLine false 40 1542; TLine true 120 134; TLine true 80 390; TLine false 240 765;
   TLine true 160 407; TLine true 200 504; TLine false 360 903; TLine true 280 421; TLine true 320 587].

(** The configuration calls. [SetFile lines nl]: SetTraceFile with a readable, non-empty file of
    these lines, the last of which ends with a newline iff [nl]: then the stream is still good
    after the last line, the extractions fail and leave the variables unchanged, and the last
    line is entered again. [SetDefault]: SetTraceFile (""). [SetMissing]: the file cannot be
    opened. *)
Inductive tcfg := SetRemote | SetDefault | SetMissing | SetFile (lines : list tline) (nl : bool) | SetMax (v : Z).
Record tcl := Tcl { tc_entries : list tentry; tc_cur : nat; tc_max : Z; tc_sent : Z; tc_calls : nat }.

(** SetRemote 124-149, SetTraceFile 151-163, LoadTrace 186-219, LoadDefaultTrace 221-242;
    the attribute MaxPacketSize is checked as uint32_t and stored in a uint16_t. *)
Definition tcl_cfg (s : tcl) (c : tcfg) : tcl :=
  match c with
  | SetRemote => Tcl [] (tc_cur s) (tc_max s) (tc_sent s) (tc_calls s)
  | SetDefault => Tcl (tc_entries s ++ load 0 default_lines) 0 (tc_max s) (tc_sent s) (tc_calls s)
  | SetMissing => Tcl (load 0 default_lines) 0 (tc_max s) (tc_sent s) (tc_calls s)
  | SetFile lines nl =>
    Tcl (load 0 (lines ++ (if nl then match rev lines with x :: _ => [x] | [] => [] end else []))) 0
        (tc_max s) (tc_sent s) (tc_calls s)
  | SetMax v => Tcl (tc_entries s) (tc_cur s) (v mod 2 ^ 16) (tc_sent s) (tc_calls s)
  end.
(** Construction: the attributes' default values are set (TraceFilename = ""). *)
Definition tcl0 : tcl := tcl_cfg (Tcl [] 0 1024 0 0) SetDefault.

(** A datagram: total size, sequence number, accepted by the socket. *)
Record tdg := Tdg { td_size : Z; td_seq : Z; td_ok : bool }.

(** SendPacket 275-317. [ok n] is the answer of the socket to the n-th datagram. *)
Definition tc_packet (ok : nat -> bool) (size : Z) (s : tcl) : tcl * tdg :=
  let payload := if size >? 12 then size - 12 else 0 in
  let o := ok (tc_calls s) in
  (Tcl (tc_entries s) (tc_cur s) (tc_max s)
       (if o then (tc_sent s + 1) mod 2 ^ 32 else tc_sent s) (S (tc_calls s)),
   Tdg (payload + 12) (tc_sent s) o).
Fixpoint tc_packets (ok : nat -> bool) (sizes : list Z) (s : tcl) : tcl * list tdg :=
  match sizes with
  | [] => (s, [])
  | x :: r => let '(s1, d) := tc_packet ok x s in let '(s2, ds) := tc_packets ok r s1 in (s2, d :: ds)
  end.

(** The sizes passed to SendPacket for one frame, 329-335. *)
Definition frame_sizes (max size : Z) : list Z := repeat max (Z.to_nat (size / max)) ++ [size mod max].

(** Send, 319-342. The result of one activation: undefined behaviour (empty vector or division by
    zero), not finished after [fuel] frames, or finished with the delay of the next activation. *)
Inductive tres := TUB | TMore | TDone (s : tcl) (delay : Z) (ds : list tdg).
Fixpoint tc_send (ok : nat -> bool) (fuel : nat) (s : tcl) : tres :=
  match fuel with
  | O => TMore
  | S n =>
    match nth_error (tc_entries s) (tc_cur s) with
    | None => TUB
    | Some e =>
      if tc_max s =? 0 then TUB
      else
        let '(s1, ds) := tc_packets ok (frame_sizes (tc_max s) (te_size e)) s in
        let cur := Nat.modulo (S (tc_cur s1)) (length (tc_entries s1)) in
        let s2 := Tcl (tc_entries s1) cur (tc_max s1) (tc_sent s1) (tc_calls s1) in
        match nth_error (tc_entries s2) cur with
        | None => TUB
        | Some e' =>
          if te_time e' =? 0 then
            match tc_send ok n s2 with
            | TDone s3 d ds' => TDone s3 d (ds ++ ds')
            | r => r
            end
          else TDone s2 (te_time e') ds
        end
    end
  end.

(** ** THzUdpServer: HandleRead 153-189 with the callbacks set by StartApplication (115-140) and
    reset by StopApplication (142-151). [v6]: the datagram arrives on m_socket6. *)
Record srv := Srv { sv_recv : Z; sv_cb4 : bool; sv_cb6 : bool }.
Inductive srvev := SvStart | SvStop | SvData (v6 : bool) (size : Z).
Definition srv_step (s : srv) (e : srvev) : srv :=
  match e with
  | SvStart => Srv (sv_recv s) true true
  | SvStop => Srv (sv_recv s) false (sv_cb6 s)
  | SvData v6 size =>
    if (if v6 then sv_cb6 s else sv_cb4 s) && (size >? 0) then Srv (sv_recv s + 1) (sv_cb4 s) (sv_cb6 s) else s
  end.
Definition srv0 : srv := Srv 0 false false.

(** ** TrafficGenerator::Generate (traffic-generator.cc:98-126). [nodes]: the identifiers of the
    nodes of the container; [draws]: the random indices. The result is the index of the chosen
    node, or None if all draws are used up by the recursion. *)
Fixpoint generate (own : Z) (draws : list nat) : option nat :=
  match draws with
  | [] => None
  | i :: r => if Z.of_nat i =? own then generate own r else Some i
  end.
