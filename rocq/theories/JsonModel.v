(** Model of Db/dbjson.c: the callbacks that build a document while the JSON parser (json/yajl_all.c,
    not modelled) reads a text, and the printing of a document. The parser is represented by the
    list of callbacks it makes; printing by the list of calls to the yajl generator.
    [None] is undefined behaviour in the functions called. *)
From Coq Require Import ZArith List Bool.
From Verif Require Import Base EncodingModel RecordModel SchemaModel.
Import ListNotations.
Open Scope Z_scope.

(** Db/dbjson.c l.82: stack_entry_t. *)
Inductive stack_entry_t := ARRAY | OBJECT.
(** Db/dbjson.c l.91-97: stack_entry: type, list of elements (head to tail; size is their number), last_key.
    push does not set last_key: [None]. *)
Record stack_entry := Entry { e_type : stack_entry_t; e_elems : list Z; e_key : option (list Z) }.
(** Db/dbjson.c l.65-70: MAX_DEPTH is WG_COMPARE_REC_DEPTH. *)
Definition MAX_DEPTH : nat := WG_COMPARE_REC_DEPTH.

(** Literal values: a long long, the bits of a double, the bytes of a string (json/yajl_api.h l.103-124). *)
Inductive lit := LInt (z : Z) | LDouble (bits : Z) | LStr (s : list Z).
(** Callbacks, json/yajl_api.h l.103-124; null and boolean have no callback function
    (Db/dbjson.c l.155-167). *)
Inductive event := ENull | EBool (b : bool) | ELit (l : lit) | EKey (k : list Z) | EArrayBegin | EArrayEnd | EObjectBegin | EObjectEnd.

(** The bytes that strncpy takes (Db/dbjson.c l.561, l.680, l.702): up to a zero byte. *)
Fixpoint cut_zero (s : list Z) : list Z := match s with [] => [] | b :: s => if b =? 0 then [] else b :: cut_zero s end.

(** Db/dbjson.c l.424-432: check_push_cb and l.434-439: check_pop_cb; the counter starts at -1 (l.279). *)
Definition check_callback (depth : Z) (e : event) : Z * bool :=
  match e with
  | EArrayBegin | EObjectBegin =>
      let depth := if depth =? -1 then 0 else depth in
      let depth := depth + 1 in
      (depth, negb (Z.of_nat MAX_DEPTH <=? depth))
  | EArrayEnd | EObjectEnd => (depth - 1, true)
  | _ => (depth, true)
  end.
(** Db/dbjson.c l.424-432, l.434-439, l.279. *)
Fixpoint check_callbacks (depth : Z) (es : list event) : Z * bool :=
  match es with
  | [] => (depth, true)
  | e :: es => let (depth, ok) := check_callback depth e in if ok then check_callbacks depth es else (depth, false)
  end.
(** Db/dbjson.c l.278-314: wg_check_json; [ok]: the text is valid JSON. *)
Definition wg_check_json (es : list event) (ok : bool) : Z :=
  let (depth, r) := check_callbacks (-1) es in
  if negb r || negb ok then -1 else if depth =? -1 then -1 else 0.

Section Json.
Context {I V : Type}.
(** As in SchemaModel.v. *)
Variable ix_any ix_tab : I -> Z -> bool.
Variable ix_add_rec : rmap -> V -> I -> Z -> option (I * Z).
Variable ix_add_field ix_del_field : rmap -> V -> I -> Z -> Z -> option (I * Z).
Variable v_ref v_free : V -> Z -> V.
Variable alloc_rec : @rdb I V -> Z -> Z.
Variable cell_ok : @rdb I V -> bool.
(** wg_encode_int, wg_encode_double, wg_encode_str without language (Db/dbjson.c l.646, l.661, l.705):
    the new store of values and the encoded value, WG_ILLEGAL on failure. *)
Variable encode : V -> lit -> V * Z.
(** malloc succeeds (Db/dbjson.c l.534, l.677, l.699). *)
Variable malloc_ok : @rdb I V -> bool.
(** Decoding a stored value: its literal (for printing). *)
Variable decode : V -> Z -> option lit.

(** Db/dbjson.c l.99-107: parser_context; the stack with the top first ([stack_ptr] is its length
    minus 1); the document found (0: not set). *)
Record ctx := Ctx { c_db : @rdb I V; c_stack : list stack_entry; c_doc : Z }.
(** Variables of the context that do not change. *)
Variable isparam isdocument : bool.

(** Db/dbjson.c l.444-455: push. *)
Definition push (c : ctx) (type : stack_entry_t) : ctx * bool :=
  if (MAX_DEPTH <=? length (c_stack c))%nat then (c, false)
  else (Ctx (c_db c) (Entry type [] None :: c_stack c) (c_doc c), true).

(** Db/dbjson.c l.525-548: add_elem. *)
Definition add_elem (c : ctx) (enc : Z) : ctx * bool :=
  match c_stack c with
  | [] => (c, false)
  | e :: st => if malloc_ok (c_db c) then (Ctx (c_db c) (Entry (e_type e) (e_elems e ++ [enc]) (e_key e) :: st) (c_doc c), true) else (c, false)
  end.

(** Db/dbjson.c l.553-564: add_key. *)
Definition add_key (c : ctx) (key : list Z) : ctx * bool :=
  match c_stack c with
  | [] => (c, false)
  | e :: st => (Ctx (c_db c) (Entry (e_type e) (e_elems e) (Some (firstn 79 (cut_zero key))) :: st) (c_doc c), true)
  end.

(** Db/dbjson.c l.571-591: add_literal. *)
Definition add_literal (c : ctx) (val : Z) : option (ctx * bool) :=
  match c_stack c with
  | [] => Some (c, false)
  | e :: st =>
      match e_type e with
      | ARRAY => Some (add_elem c val)
      | OBJECT =>
          match e_key e with
          | None => None
          | Some k =>
              let (v, key) := encode (d_val (c_db c)) (LStr k) in
              let d := RDB (d_rec (c_db c)) (d_ix (c_db c)) v in
              let c := Ctx d (c_stack c) (c_doc c) in
              if key =? WG_ILLEGAL then Some (c, false)
              else
                match wg_create_kvpair ix_any ix_tab ix_add_rec ix_add_field ix_del_field v_ref v_free alloc_rec cell_ok d key val isparam with
                | None => None
                | Some (d, rec) =>
                    let c := Ctx d (c_stack c) (c_doc c) in
                    if rec =? 0 then Some (c, false) else Some (add_elem c (wg_encode_record rec))
                end
          end
      end
  end.

(** Db/dbjson.c l.462-520: pop. *)
Definition pop (c : ctx) : option (ctx * bool) :=
  match c_stack c with
  | [] => Some (c, false)
  | e :: st =>
      let istoplevel := match st with [] => true | _ => false end in
      let size := Z.of_nat (length (e_elems e)) in
      match (match e_type e with
             | ARRAY => wg_create_array ix_add_rec alloc_rec (c_db c) size (istoplevel && isdocument) isparam
             | OBJECT => wg_create_object ix_add_rec alloc_rec (c_db c) size (istoplevel && isdocument) isparam
             end) with
      | None => None
      | Some (d, rec) =>
          if rec =? 0 then Some (Ctx d st (c_doc c), false)
          else
            match set_fields ix_any ix_tab ix_add_field ix_del_field v_ref v_free cell_ok d rec 0 (e_elems e) with
            | None => None
            | Some (d, ret) =>
                let c := Ctx d st (if istoplevel then rec else c_doc c) in
                if negb istoplevel && ret then add_literal c (wg_encode_record rec) else Some (c, ret)
            end
      end
  end.

(** Db/dbjson.c l.597-716: the callbacks. [encode] of a string gets the bytes up to a zero byte
    (l.702-705). *)
Definition callback (c : ctx) (e : event) : option (ctx * bool) :=
  match e with
  | ENull | EBool _ => Some (c, true)
  | ELit l =>
      let l := match l with LStr s => LStr (cut_zero s) | _ => l end in
      if negb (match l with LStr _ => malloc_ok (c_db c) | _ => true end) then Some (c, false)
      else
        let (v, val) := encode (d_val (c_db c)) l in
        let c := Ctx (RDB (d_rec (c_db c)) (d_ix (c_db c)) v) (c_stack c) (c_doc c) in
        if val =? WG_ILLEGAL then Some (c, false) else add_literal c val
  | EKey k => if malloc_ok (c_db c) then Some (add_key c (cut_zero k)) else Some (c, false)
  | EArrayBegin => Some (push c ARRAY)
  | EObjectBegin => Some (push c OBJECT)
  | EArrayEnd | EObjectEnd => pop c
  end.

(** The parser calls the callbacks in turn and stops when one returns 0 (json/yajl_all.c, yajl_do_parse) (l.1711-2010). *)
Fixpoint callbacks (c : ctx) (es : list event) : option (ctx * bool) :=
  match es with
  | [] => Some (c, true)
  | e :: es =>
      match callback c e with
      | None => None
      | Some (c, true) => callbacks c es
      | Some (c, false) => Some (c, false)
      end
  end.

(** Db/dbjson.c l.385-422: run_json_parser; [ok]: the text is valid JSON. Returns the database,
    the return code and the document. *)
Definition run_json_parser (d : @rdb I V) (es : list event) (ok : bool) : option (@rdb I V * Z * Z) :=
  match callbacks (Ctx d [] 0) es with
  | None => None
  | Some (c, true) => Some (c_db c, if ok then 0 else -2, c_doc c)
  | Some (c, false) => Some (c_db c, -2, c_doc c)
  end.

(** Db/dbjson.c l.327-333: wg_parse_json_document, l.343-349: wg_parse_json_fragment and l.361-366:
    wg_parse_json_param are run_json_parser with isparam and isdocument 0 1, 0 0 and 1 1. *)

(** Calls to the generator (json/yajl_api.h): yajl_gen_map_open and so on. A number is
    represented by its value, another value (printed as a string by wg_snprint_value) by its
    encoding (json/yajl_api.h l.340-370). *)
Inductive gen := GMapOpen | GMapClose | GArrayOpen | GArrayClose | GString (s : list Z) | GNumber (l : lit) | GOther (enc : Z).

(** Printing one after the other until an error ([false]); the loops of Db/dbjson.c l.766-775 and l.789-795. *)
Fixpoint print_all (f : Z -> option (list gen * bool)) (l : list Z) : option (list gen * bool) :=
  match l with
  | [] => Some ([], true)
  | x :: l =>
      match f x with
      | None => None
      | Some (g, false) => Some (g, false)
      | Some (g, true) => match print_all f l with None => None | Some (g', ok) => Some (g ++ g', ok) end
      end
  end.

(** Db/dbjson.c l.830-865: pretty_print_jsonval; [print] is pretty_print_json. *)
Definition pretty_print_jsonval (print : Z -> option (list gen * bool)) (v : V) (enc : Z) : option (list gen * bool) :=
  if is_record_ref enc then print (wg_decode_record enc)
  else match decode v enc with
       | Some (LStr s) => Some ([GString s], true)
       | Some l => Some ([GNumber l], true)
       | None => Some ([GOther enc], true)
       end.

(** Db/dbjson.c l.756-824: pretty_print_json; [None] also when the recursion is deeper than [n]. The
    calls to the generator succeed. *)
Fixpoint pretty_print_json (n : nat) (m : rmap) (v : V) (rec : Z) : option (list gen * bool) :=
  match n with
  | O => None
  | S n =>
      match m rec with
      | None => None
      | Some r =>
          if is_schema_object r then
            match print_all (fun enc => if is_record_ref enc then pretty_print_json n m v (wg_decode_record enc) else Some ([], false)) (r_fields r) with
            | None => None
            | Some (g, ok) => Some (GMapOpen :: g ++ (if ok then [GMapClose] else []), ok)
            end
          else if is_schema_array r then
            match print_all (pretty_print_jsonval (pretty_print_json n m v) v) (r_fields r) with
            | None => None
            | Some (g, ok) => Some (GArrayOpen :: g ++ (if ok then [GArrayClose] else []), ok)
            end
          else
            let get i := if field_ok r i then field r i else WG_ILLEGAL in
            match decode v (get WG_SCHEMA_KEY_OFFSET) with
            | Some (LStr k) =>
                match pretty_print_jsonval (pretty_print_json n m v) v (get WG_SCHEMA_VALUE_OFFSET) with
                | None => None
                | Some (g, ok) => Some (GString k :: g, ok)
                end
            | _ => Some ([], false)
            end
      end
  end.
(** Db/dbjson.c l.730-749: wg_print_json_document; not a document: nothing is printed. *)
Definition wg_print_json_document (n : nat) (d : @rdb I V) (document : Z) : option (list gen * bool) :=
  match d_rec d document with
  | None => None
  | Some r => if is_schema_document r then pretty_print_json n (d_rec d) (d_val d) document else Some ([], false)
  end.
End Json.
