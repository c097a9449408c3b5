(** Vocabulary for C42 and C43, independent of how the client computes. *)
From Verif Require Import Py WireModel ClientModel.

(** The inner pipelines a part holds. *)
Inductive holds : part -> list part -> Prop :=
| holds_until u c l : holds (PUntil u c (Some l)) l
| holds_each u s n l : holds (PEachLog u s n l) l
| holds_dbscan u c l : holds (PLogDbscan u c l) l
| holds_before_after u l : holds (PBeforeAfter u l) l.

(** [p] is a part of the pipeline, at any depth. *)
Inductive inside (p : part) : list part -> Prop :=
| inside_here l : In p l -> inside p l
| inside_deep q l inner : In q l -> holds q inner -> inside p inner -> inside p l.

(** The part is a PipelinePart2WithCallback. *)
Definition bears_callback (p : part) : Prop :=
  match p with PLeaf _ l => leaf_callback l = true | PLogDbscan _ _ _ => True | _ => False end.

(** The frontend uuids in a converted pipeline, at any depth of nested pipelines. *)
Fixpoint part_frontends (g : gpart) : list pystr :=
  match g with
  | GDefault _ config => flat_map (fun kv => value_frontends (snd kv)) config
  | GSimple _ f => [f]
  | GComplex _ _ config f => f :: flat_map (fun kv => value_frontends (snd kv)) config
  end
with value_frontends (v : gvalue) : list pystr :=
  match v with GPipeline l => flat_map part_frontends l | _ => [] end.

(** What execute does to the world: calls of callbacks and printed lines. *)
Inductive action := Call (p : part) (values : dict pystr gvalue) | Say (s : pystr).

(** [v] is the last value with name [k] in the message. *)
Definition last_value (values : list (pystr * gvalue)) (k : pystr) (v : gvalue) : Prop :=
  exists a b, values = a ++ (k, v) :: b /\ ~ In k (map fst b).
(** The dict given to a callback: one entry per name, the last value of that name. *)
Definition gathers (values : list (pystr * gvalue)) (d : dict pystr gvalue) : Prop :=
  NoDup (map fst d) /\ forall k v, In (k, v) d <-> last_value values k v.

(** A 128 bit number. *)
Definition uuid_ok (u : uuid) : Prop := (u < 2 ^ 128)%N.

(** [deliver cbs msgs acts]: each part result of [msgs] that carries the uuid of a part of [cbs] is one
    call of that part, each log message one printed line, in order, and nothing else. *)
Inductive deliver (cbs : part -> Prop) : list gmessage -> list action -> Prop :=
| deliver_nil : deliver cbs [] []
| deliver_call u values p d msgs acts :
    uuid_ok u -> cbs p -> part_uuid p = u -> gathers values d -> deliver cbs msgs acts ->
    deliver cbs (MPart (uuid_str u) values :: msgs) (Call p d :: acts)
| deliver_stranger u values msgs acts :
    uuid_ok u -> (forall p, cbs p -> part_uuid p <> u) -> deliver cbs msgs acts ->
    deliver cbs (MPart (uuid_str u) values :: msgs) acts
| deliver_log s msgs acts : deliver cbs msgs acts -> deliver cbs (MLog s :: msgs) (Say s :: acts)
| deliver_unset msgs acts : deliver cbs msgs acts -> deliver cbs (MUnset :: msgs) acts.

(** A message of the stream before the final result, with a uuid as the backend writes it. *)
Definition ordinary (m : gmessage) : Prop :=
  match m with
  | MFinal _ => False
  | MPart id _ => exists u, uuid_ok u /\ id = uuid_str u
  | _ => True
  end.

(** Running actions in order, until one raises. *)
Fixpoint perform {W} (callback : part -> dict pystr gvalue -> W -> W * result unit) (print : pystr -> W -> W)
    (acts : list action) (w : W) : W * result unit :=
  match acts with
  | [] => (w, Ok tt)
  | Call p d :: rest =>
      match callback p d w with
      | (w', Ok _) => perform callback print rest w'
      | (w', Err e) => (w', Err e)
      end
  | Say s :: rest => perform callback print rest (print s w)
  end.

(** No two different callback parts of the pipeline share a uuid (uuid4 draws them at random; using one
    part object in several places is allowed). *)
Definition distinct_uuids (parts : list part) : Prop :=
  forall p q, inside p parts -> bears_callback p -> inside q parts -> bears_callback q ->
    part_uuid p = part_uuid q -> p = q.
