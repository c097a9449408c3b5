(** Model of the text of an XES document between the two programs: xml.etree on the side of the client
    (legacy/log/functions.py 46-47, 274), quick_xml on the side of the backend (RXesModel).
    The document is the sequence of tags quick_xml gives for it.  Simplifications: names of tags and
    attributes are plain XML names; characters that XML does not allow are left out. *)
From Verif Require Import Py LogModel XesModel RXesModel.

(** The escapes of ET.tostring in attribute values.  legacy/log/functions.py 274. *)
Definition et_escape_char (c : N) : pystr :=
  if N.eqb c 38 then str "&amp;" else if N.eqb c 60 then str "&lt;" else if N.eqb c 62 then str "&gt;"
  else if N.eqb c 34 then str "&quot;" else if N.eqb c 13 then str "&#13;" else if N.eqb c 10 then str "&#10;"
  else if N.eqb c 9 then str "&#09;" else [c].
(** A text escaped by ET.tostring.  legacy/log/functions.py 274. *)
Definition et_escape (s : pystr) : pystr := flat_map et_escape_char s.

(** ET.tostring(root, encoding="unicode"): an element without children is one tag.  legacy/log/functions.py 274. *)
Fixpoint to_text (x : xml) : list tok :=
  match x with
  | Elem tag attrs children =>
      let a := map (fun kv => Some (fst kv, et_escape (snd kv))) attrs in
      match children with
      | [] => [TEmpty tag a]
      | _ => TStart tag a :: flat_map to_text children ++ [TEnd tag]
      end
  end.

(** The white space of attribute values as ET.parse reads it: the end of a line is one character, and
    white space that is not written as an entity is a blank.  legacy/log/functions.py 46. *)
Fixpoint normal_space (s : pystr) : pystr :=
  match s with
  | [] => []
  | c :: r =>
      if N.eqb c 13 then
        match r with
        | d :: r' => if N.eqb d 10 then 32%N :: normal_space r' else 32%N :: normal_space r
        | [] => [32%N]
        end
      else if N.eqb c 10 || N.eqb c 9 then 32%N :: normal_space r
      else c :: normal_space r
  end.
(** The attributes of a tag; None for a ParseError: a bad attribute, an unknown entity, or a name twice.
    legacy/log/functions.py 46. *)
Fixpoint parse_attrs (l : list (option (pystr * pystr))) : option (dict pystr pystr) :=
  match l with
  | [] => Some []
  | None :: _ => None
  | Some (k, v) :: r =>
      match unescape (normal_space v), parse_attrs r with
      | Some t, Some d => if dmem str_eq_dec d k then None else Some ((k, t) :: d)
      | _, _ => None
      end
  end.
(** The elements that are open, the innermost first: tag, attributes and the children so far.  legacy/log/functions.py 46. *)
Notation opened := (list (pystr * dict pystr pystr * list xml)).
(** An element is finished.  legacy/log/functions.py 46-47. *)
Definition finish (x : xml) (open : opened) (root : option xml) : option (opened * option xml) :=
  match open, root with
  | (t, a, c) :: rest, _ => Some ((t, a, c ++ [x]) :: rest, root)
  | [], None => Some ([], Some x)
  | [], Some _ => None
  end.
(** ET.parse(path).getroot(); None for a ParseError.  legacy/log/functions.py 46-47. *)
Fixpoint parse_text (l : list tok) (open : opened) (root : option xml) : option xml :=
  match l with
  | [] => match open with [] => root | _ => None end
  | TStart n attrs :: r =>
      match parse_attrs attrs, open, root with
      | Some _, [], Some _ => None
      | Some a, _, _ => parse_text r ((n, a, []) :: open) root
      | None, _, _ => None
      end
  | TEmpty n attrs :: r =>
      match parse_attrs attrs with
      | Some a => match finish (Elem n a []) open root with Some (open', root') => parse_text r open' root' | None => None end
      | None => None
      end
  | TEnd n :: r =>
      match open with
      | (t, a, c) :: rest =>
          if str_eqb t n
          then match finish (Elem t a c) rest root with Some (open', root') => parse_text r open' root' | None => None end
          else None
      | [] => None
      end
  | TOther :: r => parse_text r open root
  | TErr :: _ => None
  end.

Section Cross.
  Variables date f32 f64 : Type.
  Variables (show_date : date -> pystr) (show_f32 : f32 -> pystr) (show_f64 : f64 -> pystr).
  Variables (parse_date : pystr -> option date) (parse_f64 : pystr -> option f64) (parse_uuid : pystr -> option WireModel.uuid).
  Variables (parse_float parse_datetime : pystr -> result pystr).

  (** save_event_log_to_xes by the client, then reading by the backend.  legacy/log/functions.py 215-274, 295-297;
      event_log/xes/reader/file_xes_log_reader.rs 28-30. *)
  Definition client_to_backend (veq : value -> value -> bool) (log : eventlog) : result (outcome (xlog date f32 f64)) :=
    bind (serialize_log_to_tree veq log) (fun x => Ok (read_log f32 parse_date parse_f64 parse_uuid (to_text x))).

  (** Writing by the backend, then read_log_from_xes by the client; a ParseError of ET counts as a ValueError.
      event_log/xes/writer/xes_event_log_writer.rs 17-95; legacy/log/functions.py 42-116. *)
  Definition backend_to_client (log : xlog date f32 f64) : result eventlog :=
    match parse_text (write_log show_date show_f32 show_f64 log) [] None with
    | Some x => read_log_from_tree parse_float parse_datetime x
    | None => Err ValueError
    end.
End Cross.
Arguments client_to_backend {date} f32 {f64}.
Arguments backend_to_client {date f32 f64}.
