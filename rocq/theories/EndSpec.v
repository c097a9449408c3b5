(** Vocabulary for C53: what a user sees of a pipeline, without wire and dispatch. *)
From Verif Require Import Py WireModel ConstModel ClientModel ClientSpec BackendModel BackendSpec.

(** How a pipeline ends in the backend: all parts ran and the context is kept, a part reported an error,
    or a part panicked. *)
Inductive ending := Finished (ctx : userdata) | Broke (e : pystr) | Died.

(** The values a part with a callback gets: each key it asked for, with the value the context holds. *)
Definition sees (keys : list pystr) (ctx : userdata) (d : dict pystr gvalue) : Prop :=
  NoDup (map fst d) /\
  forall k g, In (k, g) d <->
    In k keys /\ exists v, dget str_eq_dec ctx k = Some v /\ g = match value_grpc k v with Some g => g | None => GUnset end.

Section Session.
  (** The registered parts of the backend, and its text for a missing key. *)
  Variable run : pystr -> list (pystr * rvalue) -> userdata -> list gmessage * step.
  Variable missing : pystr -> pystr.
  (** The parts whose callbacks can be reached by uuid. *)
  Variable cbs : part -> Prop.

  (** What stands before the callback of a part: a registered part, or nothing. *)
  Inductive prelude : option (pystr * list (pystr * rvalue)) -> userdata -> list gmessage -> step -> Prop :=
  | prelude_none ctx : prelude None ctx [] (Done ctx)
  | prelude_some name config ctx msgs s : run name config ctx = (msgs, s) -> prelude (Some (name, config)) ctx msgs s.

  (** [session parts ctx acts e]: the parts in order, each one with its configuration on the context the
      one before left; the messages of each part are delivered while it runs; then its own callback, if it
      has one, is called once with the values it asks for. *)
  Inductive session : list part -> userdata -> list action -> ending -> Prop :=
  | session_end ctx : session [] ctx [] (Finished ctx)
  | session_default p rest ctx name config msgs ctx' acts acts' e :
      ~ bears_callback p -> wanted p = RDefault name config -> run name config ctx = (msgs, Done ctx') ->
      deliver cbs msgs acts -> session rest ctx' acts' e -> session (p :: rest) ctx (acts ++ acts') e
  | session_default_failed p rest ctx name config msgs m acts :
      ~ bears_callback p -> wanted p = RDefault name config -> run name config ctx = (msgs, Failed m) ->
      deliver cbs msgs acts -> session (p :: rest) ctx acts (Broke m)
  | session_default_died p rest ctx name config msgs acts :
      ~ bears_callback p -> wanted p = RDefault name config -> run name config ctx = (msgs, Panicked) ->
      deliver cbs msgs acts -> session (p :: rest) ctx acts Died
  | session_call p rest ctx keys before msgs ctx' acts d acts' e :
      bears_callback p -> wanted p = RGet keys (part_uuid p) before -> prelude before ctx msgs (Done ctx') ->
      deliver cbs msgs acts -> (forall k, In k keys -> In k (map fst ctx')) -> sees keys ctx' d ->
      session rest ctx' acts' e -> session (p :: rest) ctx (acts ++ Call p d :: acts') e
  | session_call_missing p rest ctx keys before msgs ctx' acts had k left :
      bears_callback p -> wanted p = RGet keys (part_uuid p) before -> prelude before ctx msgs (Done ctx') ->
      deliver cbs msgs acts -> keys = had ++ k :: left -> (forall h, In h had -> In h (map fst ctx')) ->
      ~ In k (map fst ctx') -> session (p :: rest) ctx acts (Broke (missing k))
  | session_call_failed p rest ctx keys before msgs m acts :
      bears_callback p -> wanted p = RGet keys (part_uuid p) before -> prelude before ctx msgs (Failed m) ->
      deliver cbs msgs acts -> session (p :: rest) ctx acts (Broke m)
  | session_call_died p rest ctx keys before msgs acts :
      bears_callback p -> wanted p = RGet keys (part_uuid p) before -> prelude before ctx msgs Panicked ->
      deliver cbs msgs acts -> session (p :: rest) ctx acts Died.
End Session.

(** The context a pipeline starts with: what was sent, and a holder of colours when none was. *)
Definition starts_with (held ctx : userdata) : Prop :=
  NoDup (map fst ctx) /\
  (forall k v, In (k, v) held -> In (k, v) ctx) /\
  In (str "colors_holder") (map fst ctx) /\
  (forall k v, In (k, v) ctx -> In (k, v) held \/ k = str "colors_holder" /\ ~ In k (map fst held)).

(** The parts called, in order, and the parts of a pipeline that have a callback. *)
Definition called (acts : list action) : list part :=
  flat_map (fun a => match a with Call p _ => [p] | Say _ => [] end) acts.
Definition has_callback (p : part) : bool :=
  match p with PLeaf _ l => leaf_callback l | PLogDbscan _ _ _ => true | _ => false end.
