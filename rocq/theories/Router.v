(** Model of /repo/pillowcore/HttpHandlerSimpleRouter.cpp.

    Qt's QRegExp is outside of the repository.  Modelled here: the regular expressions pathToRegExp can produce
    that use literal characters, '.', the quantifiers * + ? on one character, and the two groups the router
    inserts.  [parse_regex] answers None on any other expression; routes with such patterns are outside of the
    model.  Matching is that of QRegExp::indexIn for an expression "^..$": leftmost, greedy, captures of earlier
    groups as long as possible; '.' matches every character; \w is letters, digits, marks and '_'.

    Simplifications: qWarning; QList copying by foreach; routes are not added from inside a handler. *)
From Verif Require Import Bytes ByteHelpers Helpers Params.
Open Scope Z_scope.

(* QByteArray::fromPercentEncoding (Qt): every '%' followed by two characters, hexadecimal or not *)
Definition qt_hex (c : ascii) : Z :=
  let v := schar c in
  if (48 <=? v) && (v <=? 57) then v - 48
  else if (97 <=? v) && (v <=? 102) then v - 97 + 10
  else if (65 <=? v) && (v <=? 70) then v - 65 + 10 else v.
Definition to_char (z : Z) : ascii := ascii_of_nat (Z.to_nat (z mod 256)).
Fixpoint qt_percent (s : bytes) : bytes :=
  match s with
  | c :: ((a :: b :: t) as u) =>
      if Ascii.eqb c "%" then to_char (Z.lor (Z.shiftl (qt_hex a) 4) (qt_hex b)) :: qt_percent t
      else c :: qt_percent u
  | _ => s
  end.

(* qstricmp (Qt) on QByteArray data: Latin-1 lower case, up to the terminating NUL *)
Definition latin1_lower (c : ascii) : ascii :=
  let v := byte_val c in
  if ((65 <=? v) && (v <=? 90)) || ((192 <=? v) && (v <=? 222) && negb (v =? 215))
  then ascii_of_nat (nat_of_ascii c + 32) else c.
Fixpoint stricmp0 (a b : bytes) : bool :=
  match a, b with
  | [], [] => true
  | [], d :: _ => Ascii.eqb d NUL
  | c :: _, [] => Ascii.eqb c NUL
  | c :: s, d :: t => if Ascii.eqb (latin1_lower c) (latin1_lower d) then (if Ascii.eqb c NUL then true else stricmp0 s t) else false
  end.

(* a C++ string literal as QString *)
Definition qlit (s : string) : qstring := map byte_val (lit s).

Section Qt.
  (* QString::fromUtf8, case folding of parameter names, \w for code units from 128 on, QString::toAscii *)
  Variables (utf8 : bytes -> qstring) (fold : qstring -> qstring) (uword : Z -> bool) (toAscii : qstring -> bytes).

  (* \w *)
  Definition is_word (z : Z) : bool :=
    if z <? 128 then ((48 <=? z) && (z <=? 57)) || ((65 <=? z) && (z <=? 90)) || ((97 <=? z) && (z <=? 122)) || (z =? 95)
    else uword z.
  (* [\w_-] *)
  Definition is_seg (z : Z) : bool := is_word z || (z =? 95) || (z =? 45).

  (* 195-207, 210-221: the matches of "mark(\w+)" in a text, leftmost and as long as possible, and the text
     between them; [cur]: inside of a possible match *)
  Inductive piece := PChar (z : Z) | PName (n : qstring).
  Fixpoint marks (mark : Z) (cur : option qstring) (s : qstring) : list piece :=
    match s with
    | [] => match cur with None => [] | Some [] => [PChar mark] | Some n => [PName n] end
    | c :: t =>
        match cur with
        | None => if c =? mark then marks mark (Some []) t else PChar c :: marks mark None t
        | Some n => if is_word c then marks mark (Some (n ++ [c])) t
                    else (match n with [] => PChar mark | _ => PName n end) ::
                         (if c =? mark then marks mark (Some []) t else PChar c :: marks mark None t)
        end
    end.
  Definition names_of (l : list piece) : list qstring :=
    flat_map (fun p => match p with PName n => [n] | PChar _ => [] end) l.
  Definition replaced (by_ : qstring) (l : list piece) : qstring :=
    flat_map (fun p => match p with PName _ => by_ | PChar c => [c] end) l.
  Definition colon : Z := 58.
  Definition star : Z := 42.
  Definition group_param : qstring := qlit "([\w_-]+)".
  Definition group_splat : qstring := qlit "(.*)".

  (* 191-227: pathToRegExp; the expression (without ^ and $) and the names *)
  Definition pathToRegExp (p : qstring) : qstring * list qstring :=
    let l1 := marks colon None p in
    let p1 := replaced group_param l1 in
    let l2 := marks star None p1 in
    (replaced group_splat l2, names_of l1 ++ names_of l2).

  (* QRegExp: see the head of the file *)
  Inductive atom := AChr (z : Z) | AAny.
  Inductive item := IOne (a : atom) | IStar (a : atom) | IPlus (a : atom) | IOpt (a : atom) | ICapPlus | ICapStar.
  Fixpoint strip (pre s : qstring) : option qstring :=
    match pre, s with
    | [], _ => Some s
    | a :: p, b :: t => if a =? b then strip p t else None
    | _, [] => None
    end.
  Definition metas : qstring := qlit "\^$()[]{}|*+?.".
  Definition is_meta (z : Z) : bool := existsb (Z.eqb z) metas.
  Definition is_quant (s : qstring) : bool := match s with c :: _ => (c =? 42) || (c =? 43) || (c =? 63) || (c =? 123) | [] => false end.
  Fixpoint parse_regex (fuel : nat) (s : qstring) : option (list item) :=
    match s, fuel with
    | [], _ => Some []
    | _, O => None
    | c :: t, S f =>
        let ok i rest := if is_quant rest then None else match parse_regex f rest with Some l => Some (i :: l) | None => None end in
        match strip group_param s with
        | Some rest => ok ICapPlus rest
        | None =>
        match strip group_splat s with
        | Some rest => ok ICapStar rest
        | None =>
            let atom := if c =? 46 then Some AAny else if is_meta c then None else Some (AChr c) in
            match atom with
            | None => None
            | Some a => match t with
                        | q :: t' => if q =? 42 then ok (IStar a) t' else if q =? 43 then ok (IPlus a) t'
                                     else if q =? 63 then ok (IOpt a) t' else ok (IOne a) t
                        | [] => ok (IOne a) t
                        end
            end
        end end
    end.
  Definition atom_ok (a : atom) (z : Z) : bool := match a with AChr c => z =? c | AAny => true end.
  (* as many characters as possible, then what follows *)
  Fixpoint greedy {A} (f : Z -> bool) (k : qstring -> option A) (s : qstring) : option (qstring * A) :=
    match s with
    | c :: t => if f c
                then match greedy f k t with
                     | Some (w, r) => Some (c :: w, r)
                     | None => match k s with Some r => Some ([], r) | None => None end
                     end
                else match k s with Some r => Some ([], r) | None => None end
    | [] => match k [] with Some r => Some ([], r) | None => None end
    end.
  Fixpoint mat (l : list item) (s : qstring) : option (list qstring) :=
    match l with
    | [] => match s with [] => Some [] | _ => None end
    | IOne a :: l => match s with c :: t => if atom_ok a c then mat l t else None | [] => None end
    | IOpt a :: l => match s with
                     | c :: t => if atom_ok a c then match mat l t with Some r => Some r | None => mat l s end else mat l s
                     | [] => mat l s
                     end
    | IStar a :: l => match greedy (atom_ok a) (mat l) s with Some (_, r) => Some r | None => None end
    | IPlus a :: l => match s with
                      | c :: t => if atom_ok a c then match greedy (atom_ok a) (mat l) t with Some (_, r) => Some r | None => None end else None
                      | [] => None
                      end
    | ICapStar :: l => match greedy (fun _ => true) (mat l) s with Some (w, r) => Some (w :: r) | None => None end
    | ICapPlus :: l => match s with
                       | c :: t => if is_seg c then match greedy is_seg (mat l) t with Some (w, r) => Some ((c :: w) :: r) | None => None end else None
                       | [] => None
                       end
    end.

  (* 16-86: the targets of routes; alive: the object still exists; known: the named method exists *)
  Inductive target :=
  | THandler (id : nat) (alive : bool)                                  (* 24-33 *)
  | TMember (id : nat) (alive known : bool)                             (* 35-45 *)
  | TMethod (id : nat) (alive : bool)                                   (* 47-57 *)
  | TFunctor (id : nat)                                                 (* 60-69 *)
  | TStatic (code : Z) (hs : list header) (content : bytes).            (* 72-83 *)
  Record route := mkRoute { r_method : bytes; r_items : list item; r_names : list qstring; r_target : target }.
  (* 115-189: addRoute; None: the expression is outside of the model *)
  Definition addRoute (method : bytes) (path : qstring) (t : target) : option route :=
    let '(re, names) := pathToRegExp path in
    match parse_regex (length re) re with
    | Some items => Some (mkRoute method items names t)
    | None => None
    end.

  (** what the router does with the request *)
  Inductive effect :=
  | ESet (name value : qstring)                                 (* request->setRequestParam(name, value) *)
  | ECall (id : nat)                                            (* the user's code number id is called with the request *)
  | EWrite (code : Z) (hs : list header) (content : bytes).     (* request->writeResponse(..) *)
  Definition invoke (t : target) : list effect :=
    match t with
    | THandler id alive => if alive then [ECall id] else []
    | TMember id alive known => if alive && known then [ECall id] else []
    | TMethod id alive => if alive then [ECall id] else []
    | TFunctor id => [ECall id]
    | TStatic code hs content => [EWrite code hs content]
    end.
  Record router := mkRouter { routes : list route; mismatch_4xx : bool; unmatched_4xx : bool; method_param : bool }.
  (* 248-251 *)
  Definition method_ok (m requestMethod : bytes) : bool :=
    match m with
    | [] => true
    | _ => (Nat.eqb (length m) (length requestMethod)) && stricmp0 m requestMethod
    end.
  (* 243-259: the loop; [matched]: routes whose path matched *)
  Fixpoint dispatch (rs : list route) (method : bytes) (path : qstring) (matched : list route) : (list effect) + (list route) :=
    match rs with
    | [] => inr matched
    | r :: t =>
        match mat (r_items r) path with
        | Some caps =>
            if method_ok (r_method r) method
            then inl (map (fun nc => ESet (fst nc) (snd nc)) (combine (r_names r) caps) ++ invoke (r_target r))
            else dispatch t method path (matched ++ [r])
        | None => dispatch t method path matched
        end
    end.
  (* 273-278 *)
  Fixpoint allow_list (rs : list route) : bytes :=
    match rs with
    | [] => []
    | [r] => r_method r
    | r :: t => r_method r ++ lit ", " ++ allow_list t
    end.
  (* 233-239 *)
  Definition effective_method (R : router) (method : bytes) (ps : pstate) : option bytes :=
    if method_param R
    then match requestParamValue utf8 fold ps (qlit "_method") with
         | Some (_, []) => Some method
         | Some (_, v) => Some (toAscii v)
         | None => None
         end
    else Some method.
  (* 229-283: handleRequest; None only if the parsing of parameters could go out of bounds (it cannot, C25) *)
  Definition handleRequest (R : router) (method path : bytes) (ps : pstate) : option (bool * list effect) :=
    match effective_method R method ps with
    | None => None
    | Some m =>
        match dispatch (routes R) m (utf8 (qt_percent path)) [] with
        | inl e => Some (true, e)
        | inr [] => Some (if unmatched_4xx R then (true, [EWrite 404 [] []]) else (false, []))
        | inr rs => Some (if mismatch_4xx R then (true, [EWrite 405 [(lit "Allow", allow_list rs)] []]) else (false, []))
        end
    end.
End Qt.
