(** Connecting a device: thz-net-device.cc:137-200 with the setters of MAC, PHY, channel and antenna it calls, and
    THzHelper::Install (helper/thz-helper.cc:63-91). Objects are named by numbers, one space for each class. *)
From Coq Require Import ZArith List Bool.
From Verif Require Import Base DeviceModel.
Import ListNotations.
Open Scope Z_scope.

Record wdev := Wdev { d_mac : option Z; d_phy : option Z; d_chan : option Z; d_ant : option Z }.
(** m_phy, m_device and m_forwardUpCb of a MAC (thz-mac-nano.cc:157-181 and alike in the other MAC layers). *)
Record wmac := Wmac { m_phyp : option Z; m_devp : option Z; m_up : option Z }.
(** m_device, m_mac and m_channel of a PHY (thz-phy-nano.cc:103-119, thz-phy-macro.cc:169-190). *)
Record wphy := Wphy { p_devp : option Z; p_macp : option Z; p_chanp : option Z }.
(** [h_list c]: m_devList of channel [c] (thz-channel.cc:99-104); [h_ant a]: m_device of antenna [a] (thz-dir-antenna.cc:101-105). *)
Record heap := Heap { h_dev : Z -> wdev; h_mac : Z -> wmac; h_phy : Z -> wphy; h_list : Z -> list (Z * Z); h_ant : Z -> option Z }.

Definition upd {A} (f : Z -> A) (k : Z) (v : A) : Z -> A := fun x => if x =? k then v else f x.
Definition up_dev k v h := Heap (upd (h_dev h) k v) (h_mac h) (h_phy h) (h_list h) (h_ant h).
Definition up_mac k v h := Heap (h_dev h) (upd (h_mac h) k v) (h_phy h) (h_list h) (h_ant h).
Definition up_phy k v h := Heap (h_dev h) (h_mac h) (upd (h_phy h) k v) (h_list h) (h_ant h).
Definition up_list k v h := Heap (h_dev h) (h_mac h) (h_phy h) (upd (h_list h) k v) (h_ant h).
Definition up_ant k v h := Heap (h_dev h) (h_mac h) (h_phy h) (h_list h) (upd (h_ant h) k v).

(** THzMac::AttachPhy, SetDevice, SetForwardUpCb. *)
Definition attach_phy m p h := up_mac m (Wmac (Some p) (m_devp (h_mac h m)) (m_up (h_mac h m))) h.
Definition mac_device m d h := up_mac m (Wmac (m_phyp (h_mac h m)) (Some d) (m_up (h_mac h m))) h.
Definition mac_forward m d h := up_mac m (Wmac (m_phyp (h_mac h m)) (m_devp (h_mac h m)) (Some d)) h.
(** THzPhy::SetDevice, SetMac, SetChannel. *)
Definition phy_device p d h := up_phy p (Wphy (Some d) (p_macp (h_phy h p)) (p_chanp (h_phy h p))) h.
Definition phy_mac p m h := up_phy p (Wphy (p_devp (h_phy h p)) (Some m) (p_chanp (h_phy h p))) h.
Definition phy_chan p c h := up_phy p (Wphy (p_devp (h_phy h p)) (p_macp (h_phy h p)) (Some c)) h.
(** THzChannel::AddDevice. *)
Definition add_device c d p h := up_list c (h_list h c ++ [(d, p)]) h.

(** A setter of device [w_dev]; without object for a null pointer, which is ignored. *)
Inductive wop :=
| WMac (d : Z) (m : option Z)
| WPhy (d : Z) (p : option Z)
| WChan (d : Z) (c : option Z)
| WAnt (d : Z) (a : option Z).
Definition w_dev (o : wop) : Z := match o with WMac d _ | WPhy d _ | WChan d _ | WAnt d _ => d end.

(** SetMac, 137-154; SetPhy, 156-172; SetChannel, 174-188; SetDirAntenna, 190-199. *)
Definition wstep (h : heap) (o : wop) : heap :=
  match o with
  | WMac d (Some m) =>
    let x := h_dev h d in
    let h1 := up_dev d (Wdev (Some m) (d_phy x) (d_chan x) (d_ant x)) h in
    let h2 := match d_phy x with Some p => mac_device m d (attach_phy m p (phy_mac p m h1)) | None => h1 end in
    mac_forward m d h2
  | WPhy d (Some p) =>
    let x := h_dev h d in
    let h1 := phy_device p d (up_dev d (Wdev (d_mac x) (Some p) (d_chan x) (d_ant x)) h) in
    match d_mac x with Some m => phy_mac p m (mac_device m d (attach_phy m p h1)) | None => h1 end
  | WChan d (Some c) =>
    let x := h_dev h d in
    let h1 := up_dev d (Wdev (d_mac x) (d_phy x) (Some c) (d_ant x)) h in
    match d_phy x with Some p => phy_chan p c (add_device c d p h1) | None => h1 end
  | WAnt d (Some a) =>
    let x := h_dev h d in
    up_ant a (Some d) (up_dev d (Wdev (d_mac x) (d_phy x) (d_chan x) (Some a)) h)
  | _ => h
  end.
Definition wrun (h : heap) (l : list wop) : heap := fold_left wstep l h.
Definition bare : wdev := Wdev None None None None.
Definition heap0 : heap := Heap (fun _ => bare) (fun _ => Wmac None None None) (fun _ => Wphy None None None) (fun _ => []) (fun _ => None).

(** THzHelper::Install, 70-89: for each node a new device, MAC, PHY and antenna. *)
Record kit := Kit { k_dev : Z; k_mac : Z; k_phy : Z; k_ant : Z }.
Definition install (c : Z) (l : list kit) : list wop :=
  flat_map (fun k => [WMac (k_dev k) (Some (k_mac k)); WPhy (k_dev k) (Some (k_phy k)); WChan (k_dev k) (Some c); WAnt (k_dev k) (Some (k_ant k))]) l.

(** IsLinkUp, 281-285. Nothing assigns m_linkup (thz-net-device.h:307), [u] is what it happens to contain. *)
Definition is_link_up (u : bool) (x : wdev) : bool := u && match d_phy x with Some _ => true | None => false end.

(** Send and SendFrom, 343-385, with the trace source Tx (m_txLogger), which is never used. *)
Inductive sout := STx (p : list Z) (dst : Z) | SEnq (p : list Z) (dst : Z).
Definition send_out (proto : Z) (p : list Z) (dst : Z) : list sout := [SEnq (dev_send proto p) dst].
Definition send_from_out (proto : Z) (p : list Z) (dst : Z) : list sout := [SEnq (dev_send_from proto p) dst].
