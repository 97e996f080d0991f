(** SPECIFICATION (independent of the model): the HTTP request heads pillow understands, as data, the text
    of each, and which data are well-formed.  Follows the grammar in parser/common.rl 6-54 in spirit, but is
    written from the English description, not from the automaton. *)
From Verif Require Import Bytes.

(** Characters. *)
Definition method_char (c : ascii) : bool := is_upper c || is_digit c || mem c (lit "$-_.").
Definition scheme_char (c : ascii) : bool := is_alpha c || is_digit c || mem c (lit "+-.").
(** any byte that may stand for itself in a target: not a control, not DEL, not space, '#' or '%' *)
Definition uri_char (c : ascii) : bool := negb (is_ctl c) && negb (mem c (lit " #%")).
Definition path_char (c : ascii) : bool := uri_char c && negb (Ascii.eqb c "?").
Definition token_char (c : ascii) : bool :=
  is_alpha c || is_digit c || mem c (lit "!#$%&'*+-.^_`|~").

(** Text made of plain characters and of escapes %hh or %uhh. *)
Inductive Text (ok : ascii -> bool) : bytes -> Prop :=
| T_nil : Text ok []
| T_char c t : ok c = true -> Text ok t -> Text ok (c :: t)
| T_esc a b t : is_xdigit a = true -> is_xdigit b = true -> Text ok t ->
    Text ok ("%"%char :: a :: b :: t)
| T_uesc a b t : is_xdigit a = true -> is_xdigit b = true -> Text ok t ->
    Text ok ("%"%char :: "u"%char :: a :: b :: t).

(** The request target. *)
Inductive target :=
| Star                                                    (* "*" *)
| Absolute (scheme rest : bytes)                          (* scheme:rest *)
| Origin (rest : bytes) (query : option bytes).           (* "/" rest ["?" query] *)

Definition target_text (t : target) : bytes :=
  match t with
  | Star => lit "*"
  | Absolute s r => s ++ lit ":" ++ r
  | Origin p None => lit "/" ++ p
  | Origin p (Some q) => lit "/" ++ p ++ lit "?" ++ q
  end.

Inductive wf_target : target -> Prop :=
| wf_star : wf_target Star
| wf_absolute s r : forallb scheme_char s = true -> Text uri_char r -> wf_target (Absolute s r)
| wf_origin p : Text path_char p -> wf_target (Origin p None)
| wf_origin_q p q : Text path_char p -> Text uri_char q -> wf_target (Origin p (Some q)).

(** A header line: name ":" blanks value CRLF. [pad] is the number of spaces before the value. *)
Record hline := mkHline { hname : bytes; hpad : nat; hvalue : bytes }.

Definition hline_text (h : hline) : bytes :=
  hname h ++ lit ":" ++ repeat SP (hpad h) ++ hvalue h ++ CRLF.

Definition wf_hline (h : hline) : Prop :=
  hname h <> [] /\ forallb token_char (hname h) = true /\
  (forall c, In c (hvalue h) -> c <> CR) /\
  (forall t, hvalue h <> SP :: t).

Record head := mkHead {
  hd_method : bytes; hd_target : target; hd_fragment : option bytes;
  hd_major : bytes; hd_minor : bytes; hd_headers : list hline }.

Definition version_text (h : head) : bytes := lit "HTTP/" ++ hd_major h ++ lit "." ++ hd_minor h.
Definition fragment_text (h : head) : bytes :=
  match hd_fragment h with None => [] | Some f => lit "#" ++ f end.

(** The exact text of a request head. *)
Definition head_text (h : head) : bytes :=
  hd_method h ++ lit " " ++ target_text (hd_target h) ++ fragment_text h ++ lit " "
  ++ version_text h ++ CRLF ++ concat (map hline_text (hd_headers h)) ++ CRLF.

Definition digits1 (b : bytes) : Prop := b <> [] /\ forallb is_digit b = true.

Record wf_head (h : head) : Prop := mkWf {
  wf_method : forallb method_char (hd_method h) = true;
  wf_method_len : (1 <= length (hd_method h) <= 20)%nat;
  wf_tgt : wf_target (hd_target h);
  wf_frag : forall f, hd_fragment h = Some f -> Text uri_char f;
  wf_major : digits1 (hd_major h);
  wf_minor : digits1 (hd_minor h);
  wf_hdrs : Forall wf_hline (hd_headers h) }.

(** The fields a handler sees. *)
Definition spec_path (t : target) : bytes :=
  match t with Origin p _ => lit "/" ++ p | _ => [] end.
Definition spec_query (t : target) : bytes :=
  match t with Origin _ (Some q) => q | _ => [] end.
Definition spec_fragment (h : head) : bytes :=
  match hd_fragment h with Some f => f | None => [] end.
Definition spec_headers (h : head) : list (bytes * bytes) :=
  map (fun l => (hname l, hvalue l)) (hd_headers h).
