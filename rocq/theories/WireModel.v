(** The messages that go over the wire (protos/*.proto) and the checks of the protobuf library on the
    scalar fields.

    Trusted, not modelled: the byte encoding of protobuf and HTTP/2.  A message is its tree of fields.
    A field of message type that is unset reads as the default message, so a GrpcContextValue without
    a member of its oneof, an absent GrpcContextValue and [GUnset] are one thing here. *)
From Coq Require Import SpecFloat.
From Verif Require Import Py.

(** A Python float and a Rust f64 (binary64), a proto float (binary32).  The carrier holds both.  protos/pipelines_and_context.proto 12-35 (field float); grpc/converters.rs 113. *)
Notation pyfloat := spec_float.

(** Storing a double in a proto [float] field (and [as f32], converters.rs 526, 550): rounding to
    nearest even, overflow to infinity. *)
Definition f32 (x : pyfloat) : pyfloat :=
  match x with
  | S754_finite s m e => binary_normalize 24 128 (cond_Zopp s (Zpos m)) e s
  | _ => x
  end.

(** A code point that cannot be written in UTF-8.  For string fields: protos/pipelines_and_context.proto 12-35. *)
Definition surrogate (c : N) : bool := ((55296 <=? c) && (c <=? 57343))%N.
(** Assigning a str to a proto [string] field: UnicodeEncodeError (a ValueError) on a lone surrogate.  protos/pipelines_and_context.proto 12-35 (field string). *)
Definition pb_string (s : pystr) : result pystr :=
  if existsb surrogate s then Err ValueError else Ok s.
(** Assigning an int to a [uint32] field: ValueError out of range.  protos/pipelines_and_context.proto 12-35 (field uint32). *)
Definition pb_uint32 (z : Z) : result Z :=
  if ((0 <=? z) && (z <? 2 ^ 32))%Z then Ok z else Err ValueError.
(** Assigning an int to a [uint64] field: ValueError out of range.  protos/pm_models.proto 33-35 (events). *)
Definition pb_uint64 (z : Z) : result Z :=
  if ((0 <=? z) && (z <? 2 ^ 64))%Z then Ok z else Err ValueError.

(** GrpcColor, util.proto 9-13. *)
Record gcolor := mkGColor { gc_red : Z; gc_green : Z; gc_blue : Z }.
(** GrpcColoredRectangle, pipelines_and_context.proto 80-85. *)
Record grect := mkGRect { gr_color : gcolor; gr_start : Z; gr_length : Z; gr_name : pystr }.
(** GrpcEventLogInfo, pipelines_and_context.proto 92-96. *)
Record ginfo := mkGInfo { gi_events : Z; gi_traces : Z; gi_classes : Z }.
(** GrpcPetriNetArc, pm_models.proto 65-69. *)
Record garc := mkGArc { ga_id : Z; ga_place : Z; ga_tokens : Z }.
(** GrpcPetriNetTransition, pm_models.proto 58-63. *)
Record gtransition := mkGTransition { gt_id : Z; gt_in : list garc; gt_out : list garc; gt_data : pystr }.
(** GrpcPetriNet, pm_models.proto 46-56, 71-78: places as (id, name), markings as lists of (place id, tokens);
    a marking field may be unset. *)
Record gpetri := mkGPetri { gp_places : list (Z * pystr); gp_transitions : list gtransition;
                            gp_initial : option (list (Z * Z)); gp_final : option (list (Z * Z)) }.
(** GrpcGraph, pipelines_and_context.proto 144-158: nodes as (id, data), edges as (from, to, data). *)
Record ggraph := mkGGraph { gg_nodes : list (Z * pystr); gg_edges : list (Z * Z * pystr) }.
(** GrpcDataset, pm_models.proto 98-110. *)
Record gdataset := mkGDataset { gd_rows : list (list pyfloat); gd_columns : list pystr; gd_names : list pystr }.
(** GrpcLabeledDataset, pm_models.proto 112-116. *)
Record glabeled := mkGLabeled { gl_dataset : gdataset; gl_labels : list Z; gl_colors : list gcolor }.

(** GrpcContextValue (pipelines_and_context.proto 12-35) and GrpcPipelinePartBase.  Left out: the
    sub-array values (no client part asks for them) and parallel parts (no client part makes one). *)
Inductive gvalue :=
| GUnset
| GString (s : pystr)
| GHashesLog (log : list (list Z))
| GNamesLog (log : list (list pystr))
| GUint32 (n : Z)
| GBool (b : bool)
| GEnum (ty v : pystr)
| GStrings (l : list pystr)
| GPipeline (parts : list gpart)
| GFloat (f : pyfloat)
| GColors (log : list (list grect))
| GInfo (i : ginfo)
| GPetriNet (p : gpetri)
| GGraph (g : ggraph)
| GCounts (l : list (Z * Z))
| GFreqs (l : list (Z * pyfloat))
| GDataset (d : gdataset)
| GLabeled (d : glabeled)
with gpart :=
| GDefault (name : pystr) (config : list (pystr * gvalue))
| GSimple (key : pystr) (frontend : pystr)
| GComplex (keys : list pystr) (before : pystr) (config : list (pystr * gvalue)) (frontend : pystr).

(** Reading a member of the oneof gives the default of its type when another member is set.  protos/pipelines_and_context.proto 12-35. *)
Definition as_colors (v : gvalue) : list (list grect) := match v with GColors l => l | _ => [] end.
(** protos/pipelines_and_context.proto 12-35. *)
Definition as_names_log (v : gvalue) : list (list pystr) := match v with GNamesLog l => l | _ => [] end.
(** protos/pipelines_and_context.proto 12-35. *)
Definition as_info (v : gvalue) : ginfo := match v with GInfo i => i | _ => mkGInfo 0 0 0 end.
(** protos/pipelines_and_context.proto 12-35. *)
Definition as_uint32 (v : gvalue) : Z := match v with GUint32 n => n | _ => 0%Z end.
(** protos/pipelines_and_context.proto 12-35. *)
Definition as_petri_net (v : gvalue) : gpetri :=
  match v with GPetriNet p => p | _ => mkGPetri [] [] None None end.
(** protos/pipelines_and_context.proto 12-35. *)
Definition as_graph (v : gvalue) : ggraph := match v with GGraph g => g | _ => mkGGraph [] [] end.
(** protos/pipelines_and_context.proto 12-35. *)
Definition as_counts (v : gvalue) : list (Z * Z) := match v with GCounts l => l | _ => [] end.
(** protos/pipelines_and_context.proto 12-35. *)
Definition as_freqs (v : gvalue) : list (Z * pyfloat) := match v with GFreqs l => l | _ => [] end.
(** protos/pipelines_and_context.proto 12-35. *)
Definition as_dataset (v : gvalue) : gdataset := match v with GDataset d => d | _ => mkGDataset [] [] [] end.
(** protos/pipelines_and_context.proto 12-35. *)
Definition as_labeled (v : gvalue) : glabeled :=
  match v with GLabeled d => d | _ => mkGLabeled (mkGDataset [] [] []) [] [] end.

(** GrpcPipelineFinalResult, backend_service.proto 44-49. *)
Inductive gfinal := FSuccess (guid : pystr) | FError (message : pystr) | FUnset.
(** GrpcPipelinePartExecutionResult, backend_service.proto 23-29. *)
Inductive gmessage :=
| MFinal (f : gfinal)
| MPart (frontend : pystr) (values : list (pystr * gvalue))
| MLog (s : pystr)
| MUnset.

(** GrpcPipelineExecutionRequest, backend_service.proto 18-21. *)
Record grequest := mkReq { rq_pipeline : list gpart; rq_context : list (pystr * gvalue) }.

(** * UUIDs *)

(** A uuid.UUID is its 128 bit int.  grpc_pipelines/grpc_pipelines.py 121. *)
Notation uuid := N.

(** One digit of '%x'.  grpc_pipelines/grpc_pipelines.py 206. *)
Definition hexl (n : N) : N := if (n <? 10)%N then (48 + n)%N else (87 + n)%N.
(** The [k] lowest hexadecimal digits, most significant first ('%032x' for k = 32).  grpc_pipelines/grpc_pipelines.py 206. *)
Fixpoint hex_digits (k : nat) (n : N) : pystr :=
  match k with
  | 0 => []
  | S k' => hex_digits k' (n / 16)%N ++ [hexl (n mod 16)%N]
  end.
(** str(uuid) (grpc_pipelines.py 206) of the Python standard library (uuid.py UUID.__str__), and uuid.to_string() of the Rust
    crate: 8-4-4-4-12 lower case hexadecimal digits. *)
Definition uuid_str (u : uuid) : pystr :=
  let h := hex_digits 32 u in
  firstn 8 h ++ [45%N] ++ firstn 4 (skipn 8 h) ++ [45%N] ++ firstn 4 (skipn 12 h) ++ [45%N] ++
  firstn 4 (skipn 16 h) ++ [45%N] ++ skipn 20 h.

(** The value of one hexadecimal digit.  grpc_pipelines/grpc_pipelines.py 58. *)
Definition unhex (c : N) : option N :=
  if ((48 <=? c) && (c <=? 57))%N then Some (c - 48)%N
  else if ((97 <=? c) && (c <=? 102))%N then Some (c - 87)%N
  else if ((65 <=? c) && (c <=? 70))%N then Some (c - 55)%N
  else None.
(** int(hex, 16) on hexadecimal digits.  grpc_pipelines/grpc_pipelines.py 58. *)
Fixpoint read_hex (acc : N) (s : pystr) : option N :=
  match s with
  | [] => Some acc
  | c :: s' => match unhex c with Some d => read_hex (acc * 16 + d)%N s' | None => None end
  end.
(** uuid.UUID(s) (grpc_pipelines.py 58; uuid.py UUID.__init__): hyphens dropped, 32 hexadecimal digits, ValueError otherwise.
    Simplified: the "urn:uuid:" prefix, braces, and the spaces, signs and underscores that int()
    tolerates are errors here; no sender uses them. *)
Definition uuid_parse (s : pystr) : result uuid :=
  let h := filter (fun c => negb (c =? 45)%N) s in
  if length h =? 32 then match read_hex 0 h with Some u => Ok u | None => Err ValueError end
  else Err ValueError.
