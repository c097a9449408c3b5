(** What the implied relations w1, w2 and w3 of the alpha++ NFC algorithm are meant to say, in terms of the log, of the transitions
    before and after the places of a net, and of the answers [arrow] of the relation "some time after". *)
From Verif Require Import Py InfoSpec ReplayModel ReplaySpec RInfoSpec AlphaModel AlphaSpec PlusSpec NfcSpec.

Section Rel.
  Variable log : list (list pystr).
  Variable ign : option (list pystr).
  Variable more : list (pystr * pystr).
  Variable arrow : pystr -> pystr -> Prop.
  Variable net : pnet.
  (** Before, directly or not; or beside. *)
  Definition ahead (a b : pystr) : Prop := nfc_before log ign more a b \/ arrow a b.
  Definition tied (a b : pystr) : Prop := ahead a b \/ nfc_beside log ign a b.
  (** Some task takes from two places: [a] puts into one of them only, [b] takes from the other one, and nothing which puts into that
      one is tied to [a]. *)
  Definition implied1 (a b : pystr) : Prop := ~ follows log ign a b /\
    exists c p1 p2, seen log ign c /\ p1 <> p2 /\ drains net p1 c /\ drains net p2 c /\
      feeds net p1 a /\ ~ feeds net p2 a /\ drains net p2 b /\ forall d, feeds net p2 d -> ~ tied d a.
  (** The transition has more than one arc to places, or from places. *)
  Definition many_out (a : pystr) : Prop := exists t, In t (n_trans net) /\ tr_name t = a /\ 2 <= length (tr_out t).
  Definition many_in (a : pystr) : Prop := exists t, In t (n_trans net) /\ tr_name t = a /\ 2 <= length (tr_in t).
  (** [b] comes after [a], and [a] puts into a place from which some alternative of [b] is reached but not [b]. *)
  Definition implied21 (a b : pystr) : Prop := arrow a b /\ many_out a /\
    exists c place, seen log ign c /\ forked log ign more b c /\ feeds net place a /\
      (forall d, drains net place d -> ~ tied d b) /\ exists d, drains net place d /\ tied d c.
  (** The same seen from the other side. *)
  Definition implied22 (a b : pystr) : Prop := arrow a b /\ many_in b /\
    exists c place, seen log ign c /\ joined log ign more a c /\ drains net place b /\
      (forall d, feeds net place d -> ~ tied a d) /\ exists d, feeds net place d /\ tied c d.
  Definition implied2 (a b : pystr) : Prop := implied21 a b \/ implied22 a b.
  (** Other tasks [a'] and [b'], which share a place with [a] and with [b], come after each other but not after, or before, [a] and [b]:
      every place before [b] is before [b'] or before a task which shares a place with [b], comes after [a'] but not after [a], and is
      tied to [b']. *)
  Definition implied3 (a b : pystr) : Prop := arrow a b /\
    exists a' b', seen log ign a' /\ seen log ign b' /\ a' <> b' /\
      (exists place, feeds net place a /\ feeds net place a') /\ (exists place, drains net place b /\ drains net place b') /\
      ~ arrow a b' /\ ~ arrow a' b /\ arrow a' b' /\
      forall place, drains net place b -> drains net place b' \/
        exists c, seen log ign c /\ ~ arrow a c /\ arrow a' c /\ tied b' c /\ (exists q, drains net q b /\ drains net q c) /\ drains net place c.
  (** A pair of w2 which follows from a step of w2 and a step ahead. *)
  Definition by_steps (a c : pystr) : Prop := exists b, seen log ign b /\
    ((implied2 a b /\ ahead b c) \/ (implied2 b c /\ ahead a b)).
End Rel.
