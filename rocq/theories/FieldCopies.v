(** Model of the implicit sharing behind the request getters: the control blocks (QByteArray::Data of Qt 4.8 and of Qt 5.5) of the
    members _requestMethod ... _requestContent and _requestHeaders of HttpConnectionPrivate, which point into
    _requestBuffer without owning its bytes, and of the copies user code takes of them.
    ByteArrayHelpers.h 58-109 (setFromRawDataAndNullterm, setFromRawData, the branches for Qt 4 and for Qt 5),
    HttpConnection.cpp 199-213, 257-290 (the members are set), 342 (the content is emptied). *)
From Verif Require Import Bytes ByteHelpers Thin Helpers Conn ConnSpec ConnPhase Getters.
Open Scope Z_scope.

(** ** Control blocks *)
(* where the field data points to: memory of the block itself; the request buffer, at a place where the n-th
   announced request had the bytes b; the literal "" *)
Inductive place := Own (b : bytes) | Raw (n : nat) (b : bytes) | Lit.
(* QByteArray::Data without the reference count, which is counted where it is needed; v_alloc: capacity(), which is alloc
   in Qt 4, and alloc - 1 or 0 in Qt 5 *)
Record block := mkB { v_alloc : Z; v_size : Z; v_data : place }.
Definition blocks := list block.
(* number 0 is QByteArray::shared_null *)
Definition null_block : block := mkB 0 0 (Own []).
Definition at_ (h : blocks) (i : nat) : block := nth i h null_block.
Fixpoint put_at (i : nat) (x : block) (h : blocks) : blocks :=
  match h, i with
  | [], _ => []
  | _ :: t, O => x :: t
  | y :: t, S i => y :: put_at i x t
  end.
Definition clear_alloc (i : nat) (h : blocks) : blocks := put_at i (mkB 0 (v_size (at_ h i)) (v_data (at_ h i))) h.

(* d->ref == 1: l are all the QByteArrays in the program; shared_null has one reference of its own *)
Fixpoint refs (i : nat) (l : list nat) : nat :=
  match l with [] => 0%nat | j :: t => if (i =? j)%nat then S (refs i t) else refs i t end.
Definition sole (i : nat) (l : list nat) : bool := (refs i l + (if (i =? 0)%nat then 1 else 0) =? 1)%nat.

(** ** Setting a member *)
(* a new block, or block i again *)
Definition fresh (b : block) (h : blocks) : blocks * nat := (h ++ [b], length h).
(* QByteArray::setRawData() of block i *)
Definition setRawData (one : bool) (b : block) (i : nat) (h : blocks) : blocks * nat :=
  if negb one || negb (v_alloc (at_ h i) =? 0) then fresh b h else (put_at i b h, i).
(* QT_VERSION >= QT_VERSION_CHECK(5, 0, 0).  The differences that matter: a block made from raw data has alloc 0 in Qt 5,
   and its size in Qt 4.  (Simplification for Qt 5: an empty raw array is a block of its own and not the static
   shared_empty; neither is ever written to.) *)
Section Version.
Variable qt5 : bool.
(* one assignment of transitionToSendingHeaders or setupRequestHeaders *)
Inductive setting :=
| SText (b : bytes)       (* setFromRawDataAndNullterm *)
| SDeep (b : bytes)       (* 273: = QByteArray(data, length) *)
| SContent (b : bytes).   (* 290: setFromRawData *)
Definition assign (n : nat) (s : setting) (one : bool) (i : nat) (h : blocks) : blocks * nat :=
  match s with
  | SText [] => if qt5 then setRawData one (mkB 0 0 Lit) i h                  (* 65-68 *)
                else setRawData one (mkB 0 0 Lit) i (clear_alloc i h)        (* 76, 78 *)
  | SText b =>
      if qt5 then setRawData one (mkB 0 (blen b) (Raw n b)) i h              (* 71 *)
      else
      let h := clear_alloc i h in                                            (* ByteArrayHelpers.h 76 *)
      if one then (put_at i (mkB (blen b) (blen b) (Raw n b)) h, i)          (* 81-86 *)
      else setRawData one (mkB (blen b) (blen b) (Raw n b)) i h              (* 88 *)
  | SDeep b => fresh (mkB (blen b) (blen b) (Own b)) h
  | SContent b =>
      if qt5 then setRawData one (mkB 0 (blen b) (Raw n b)) i h              (* 97 *)
      else if one then (put_at i (mkB (blen b) (blen b) (Raw n b)) h, i)          (* 99-104 *)
      else setRawData one (mkB (blen b) (blen b) (Raw n b)) i (clear_alloc i h)   (* 107-108 *)
  end.
(* a list of members, one after the other; [others]: all the other QByteArrays *)
Fixpoint assign_all (n : nat) (others done todo : list nat) (ss : list setting) (h : blocks) : blocks * list nat :=
  match todo, ss with
  | i :: todo, s :: ss =>
      let one := sole i (done ++ (i :: todo) ++ others) in
      let x := assign n s one i h in
      assign_all n others (done ++ [snd x]) todo ss (fst x)
  | _, _ => (h, done)
  end.

(** ** The members and the copies *)
(* w_n: how many requests were announced; w_hdrs: name and value of each element of _requestHeaders;
   w_fix: _requestUri, Method, Fragment, Path, QueryString, HttpVersion, Content; w_copies: those of user code, in the
   order in which they were taken, None when destroyed *)
Record world := mkW { w_n : nat; w_heap : blocks; w_hdrs : list nat; w_fix : list nat; w_copies : list (option nat) }.
(* 130-136: the members are null but for _requestContent, which is detached *)
Definition world0 : world := mkW 0 [null_block; mkB 0 0 (Own [])] [] [0; 0; 0; 0; 0; 0; 1]%nat [].
Fixpoint alive (l : list (option nat)) : list nat :=
  match l with [] => [] | Some i :: t => i :: alive t | None :: t => alive t end.
Definition members (w : world) : list nat := w_hdrs w ++ w_fix w.

(* which getter, or requestHeaders().at(i).first, .second *)
Inductive vfield := VUri | VMethod | VFragment | VPath | VQuery | VVersion | VContent | VName (i : nat) | VValue (i : nat).
Definition value_of (f : vfield) (r : request) : bytes :=
  match f with
  | VUri => q_uri r | VMethod => q_method r | VFragment => q_fragment r | VPath => q_path r | VQuery => q_query r
  | VVersion => q_version r | VContent => q_content r
  | VName i => fst (nth i (q_headers r) ([], [])) | VValue i => snd (nth i (q_headers r) ([], []))
  end.
(* an index past the end gives HttpHeader(), as QVector::value does *)
Definition member (f : vfield) (w : world) : nat :=
  match f with
  | VUri => nth 0 (w_fix w) 0 | VMethod => nth 1 (w_fix w) 0 | VFragment => nth 2 (w_fix w) 0 | VPath => nth 3 (w_fix w) 0
  | VQuery => nth 4 (w_fix w) 0 | VVersion => nth 5 (w_fix w) 0 | VContent => nth 6 (w_fix w) 0
  | VName i => nth (2 * i) (w_hdrs w) 0 | VValue i => nth (2 * i + 1) (w_hdrs w) 0
  end%nat.

(* 203-205: _requestHeaders gets its new length, elements are removed or added at the end *)
Definition resize (n : nat) (l : list nat) : list nat := firstn n l ++ repeat 0%nat (n - length l).
Definition header_settings (hs : list header) : list setting := flat_map (fun h => [SText (fst h); SText (snd h)]) hs.
Definition field_settings (r : request) : list setting :=
  [match q_query r with [] => SText (q_uri r) | _ => SDeep (q_uri r) end;    (* 266-275 *)
   SText (q_method r); SText (q_fragment r); SText (q_path r); SText (q_query r); SText (q_version r); SContent (q_content r)].
(* 199-213, 261-290.  setupRequestHeaders is run once here, at 219 or 262; a second run would set the same places. *)
Definition announce (r : request) (w : world) : world :=
  let n := S (w_n w) in
  let hs := resize (2 * length (q_headers r)) (w_hdrs w) in
  let x := assign_all n (w_fix w ++ alive (w_copies w)) [] hs (header_settings (q_headers r)) (w_heap w) in
  let y := assign_all n (snd x ++ alive (w_copies w)) [] (w_fix w) (field_settings r) (fst x) in
  mkW n (fst y) (snd x) (snd y) (w_copies w).
(* 342 *)
Definition empty_content (w : world) : world :=
  let i := nth 6 (w_fix w) 0%nat in
  let b := at_ (w_heap w) i in
  mkW (w_n w) (if 0 <? v_size b then put_at i (mkB (v_alloc b) 0 (v_data b)) (w_heap w) else w_heap w)
    (w_hdrs w) (w_fix w) (w_copies w).

(* what a step of the connection does to the members: 342 after the slots of requestCompleted, 257-290 before those of
   requestReady *)
Definition follow (c : conn) (stk : list frame) (a : action) (c' : conn) (w : world) : world :=
  let w := if releases stk a then empty_content w else w in
  if (length (announced (log c)) <? length (announced (log c')))%nat
  then match List.rev (announced (log c')) with r :: _ => announce r w | [] => w end
  else w.

(** ** User code *)
(* the bytes a QByteArray with block number i has; junk: what is in the request buffer when it is no longer that of
   the request the block was made for *)
Definition reading (c : conn) (stk : list frame) (w : world) (junk : bytes) (i : nat) : bytes :=
  let b := at_ (w_heap w) i in
  firstn (Z.to_nat (v_size b))
    (match v_data b with
     | Own b => b
     | Lit => []
     | Raw n b => if answeringb c stk && (n =? w_n w)%nat then b else junk
     end).
Fixpoint set_slot (k : nat) (x : option nat) (l : list (option nat)) : list (option nat) :=
  match l, k with
  | [], _ => []
  | _ :: t, O => x :: t
  | y :: t, S k => y :: set_slot k x t
  end.
Definition all_arrays (w : world) : list nat := members w ++ alive (w_copies w).

Inductive vact :=
| VAct (a : action)                            (* the connection *)
| VCopy (f : vfield)                           (* QByteArray x = connection->...; *)
| VDetach (k : nat) (junk : bytes)             (* x.detach() *)
| VAppend (k : nat) (s : bytes) (more : Z) (junk : bytes)  (* x.append(s, length), allocating [more] bytes more than needed *)
| VDrop (k : nat).                             (* x is destroyed *)
Inductive vcfg := VRun (c : conn) (stk : list frame) (w : world) | VBad.   (* VBad: undefined behaviour *)

(* a block of its own with the bytes b for copy k *)
Definition own_copy (k : nat) (b : bytes) (more : Z) (w : world) : world :=
  mkW (w_n w) (w_heap w ++ [mkB (blen b + Z.max 0 more) (blen b) (Own b)]) (w_hdrs w) (w_fix w) (set_slot k (Some (length (w_heap w))) (w_copies w)).
Definition copy_of (k : nat) (w : world) : option nat := nth k (w_copies w) None.
Definition vstep (g : vcfg) (a : vact) : vcfg :=
  match g with
  | VBad => VBad
  | VRun c stk w =>
      match a with
      | VAct a => match step (Run c stk) a with
                  | Run c' stk' => VRun c' stk' (follow c stk a c' w)
                  | UB _ _ => VBad
                  end
      | VCopy f => VRun c stk (mkW (w_n w) (w_heap w) (w_hdrs w) (w_fix w) (w_copies w ++ [Some (member f w)]))
      | VDetach k junk =>                                    (* Qt: if (d->ref != 1 || d->data != d->array) realloc(d->size) *)
          match copy_of k w with
          | None => VRun c stk w
          | Some i => if sole i (all_arrays w) && match v_data (at_ (w_heap w) i) with Own _ => true | _ => false end
                      then VRun c stk w
                      else VRun c stk (own_copy k (reading c stk w junk i) 0 w)
          end
      | VAppend k s more junk =>                             (* Qt: if (d->ref != 1 || d->size + len > d->alloc) realloc(...) *)
          match copy_of k w, s with
          | None, _ | _, [] => VRun c stk w
          | Some i, _ =>
              let b := at_ (w_heap w) i in
              if negb (sole i (all_arrays w)) || (v_alloc b <? v_size b + blen s)
              then VRun c stk (own_copy k (reading c stk w junk i ++ s) more w)
              else match v_data b with
                   | Own d => VRun c stk (mkW (w_n w) (put_at i (mkB (v_alloc b) (v_size b + blen s) (Own (firstn (Z.to_nat (v_size b)) d ++ s))) (w_heap w))
                                            (w_hdrs w) (w_fix w) (w_copies w))
                   | _ => VBad                               (* writes into memory that is not its own *)
                   end
          end
      | VDrop k => VRun c stk (mkW (w_n w) (w_heap w) (w_hdrs w) (w_fix w) (set_slot k None (w_copies w)))
      end
  end.
Definition vrun (g : vcfg) (l : list vact) : vcfg := fold_left vstep l g.
Definition vstart : vcfg := VRun conn0 [] world0.
End Version.
(* what copy k reads as *)
Definition reads (g : vcfg) (k : nat) (junk : bytes) : option bytes :=
  match g with
  | VBad => None
  | VRun c stk w => match copy_of k w with Some i => Some (reading c stk w junk i) | None => None end
  end.
