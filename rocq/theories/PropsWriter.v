(** C81: HttpRequestWriter. *)
From Verif Require Import Bytes ByteHelpers Helpers HelpersProofs TextSpec Thin Conn HeadBuf PropsHeadBuf Joyent RespParser Client Writer PropsClient3.
Open Scope Z_scope.

(** ** What is expected *)
(* the text of a request *)
Definition RequestBytes (method path : bytes) (hs : list header) (data : bytes) (b : bytes) : Prop :=
  exists len, (data = [] /\ len = [] \/ data <> [] /\ exists d, Canonical 10 d (blen data) /\ len = lit "Content-Length: " ++ d ++ CRLF) /\
    b = method ++ lit " " ++ path ++ lit " HTTP/1.1" ++ CRLF ++ flat_map (fun h => fst h ++ lit ": " ++ snd h ++ CRLF) hs ++ len ++ CRLF ++ data.
Record wreq := mkWR { wq_method : bytes; wq_path : bytes; wq_headers : list header; wq_data : bytes }.
Definition call_of (a : wact) : option wreq :=
  match a with
  | WDevice _ => None
  | WGet p hs => Some (mkWR (lit "GET") p hs [])
  | WHead p hs => Some (mkWR (lit "HEAD") p hs [])
  | WPost p hs data => Some (mkWR (lit "POST") p hs data)
  | WPut p hs data => Some (mkWR (lit "PUT") p hs data)
  | WDelete p hs => Some (mkWR (lit "DELETE") p hs [])
  | WWrite m p hs data => Some (mkWR m p hs data)
  end.
(* the requests made while d is the device; cur: the device at first *)
Fixpoint requests_to (d : nat) (cur : option nat) (l : list wact) : list wreq :=
  match l with
  | [] => []
  | WDevice x :: l => requests_to d x l
  | a :: l => (match cur, call_of a with Some c, Some r => if (c =? d)%nat then [r] else [] | _, _ => [] end) ++ requests_to d cur l
  end.
Definition wsize (r : wreq) : Z :=
  blen (wq_method r) + blen (wq_path r) + fold_right (fun h n => blen (fst h) + blen (snd h) + 4 + n) 0 (wq_headers r) + blen (wq_data r) + 100.
(* requests of less than 2 GiB *)
Definition wsmall (a : wact) : Prop := match call_of a with Some r => wsize r <= 2147483647 | None => True end.

Lemma blen_app' a b : blen (a ++ b) = blen a + blen b.
Proof. unfold blen. rewrite app_length. lia. Qed.

Section Memory.
  Variable junk : bytes -> Z -> bytes.
  Variable more : Z -> Z.
  Variable salloc : bytes -> Z.
  Variable sraw : bytes -> bool.
  Hypothesis Hjunk : forall m n, 0 <= n -> blen (junk m n) = n.
  Hypothesis Hmore : forall n, 0 <= n <= 2147483647 -> n <= more n.
  Hypothesis Hmono : forall n m, 0 <= n <= m -> more n <= more m.

  Definition appendsM (f : ba -> option ba) (s : bytes) : Prop :=
    forall b, WF b -> b_size b + blen s <= 2147483647 ->
    exists b', f b = Some b' /\ WF b' /\ text b' = text b ++ s /\ b_alloc b' <= Z.max (b_alloc b) (more (b_size b')).
  Lemma put_alloc off s b b' : put off s b = Some b' -> b_alloc b' = b_alloc b.
  Proof. unfold put. destruct (_ && _); [|discriminate]. now injection 1 as <-. Qed.
  Lemma grow_alloc len b b' : WF b -> 0 <= len -> b_size b + len <= 2147483647 -> grow junk more len b = Some b' ->
    b_alloc b' = b_alloc b \/ b_alloc b' = more (b_size b + len).
  Proof.
    intros W L H. unfold grow. pose proof (wf_size _ W). rewrite to_int_small by lia. destruct (_ || _); [|injection 1 as <-; auto].
    unfold realloc. destruct (_ <? _); [discriminate|]. destruct (b_shared b); injection 1 as <-; auto.
  Qed.
  Lemma fill_alloc s b b' : fill s b = Some b' -> b_alloc b' = b_alloc b.
  Proof.
    unfold fill. destruct (put _ s b) as [b1|] eqn:E; [|discriminate]. cbn [bind]. intros E2. apply put_alloc in E, E2. now rewrite E2.
  Qed.
  Lemma grow_fillM s : appendsM (fun b => bind (grow junk more (blen s) b) (fill s)) s.
  Proof.
    intros b W H. destruct (grow_fill junk more Hjunk Hmore s b W H) as (b' & E & W' & T). exists b'. split; [exact E|]. split; [exact W'|]. split; [exact T|].
    pose proof (size_of _ _ _ W W' T) as S. destruct (grow junk more (blen s) b) as [b1|] eqn:G; [|discriminate]. cbn [bind] in E.
    apply fill_alloc in E. destruct (grow_alloc (blen s) b b1 W (blen_nonneg s) H G) as [A|A]; rewrite E, A, S; lia.
  Qed.
  Lemma bytesM s : appendsM (do_wop junk more salloc sraw (WBytes s)) s.
  Proof. intros b W H. cbn [do_wop]. unfold q_append_ba. rewrite (wf_static _ W). cbn [andb]. now apply grow_fillM. Qed.
  Lemma charM c : appendsM (q_append_char junk more c) [c].
  Proof. exact (grow_fillM [c]). Qed.
  Lemma seqM f g s t : appendsM f s -> appendsM g t -> appendsM (fun b => bind (f b) g) (s ++ t).
  Proof.
    intros F G b W H. pose proof (blen_app' s t). pose proof (blen_nonneg t). pose proof (blen_nonneg s).
    destruct (F b W ltac:(lia)) as (b1 & -> & W1 & T1 & A1). cbn [bind]. pose proof (size_of _ _ _ W W1 T1).
    destruct (G b1 W1 ltac:(lia)) as (b2 & -> & W2 & T2 & A2). exists b2. rewrite T2, T1, app_assoc. pose proof (size_of _ _ _ W1 W2 T2).
    split; auto. split; auto. split; auto. pose proof (wf_size _ W). pose proof (Hmono (b_size b1) (b_size b2) ltac:(lia)). lia.
  Qed.
  Lemma charsM d : appendsM (append_chars junk more d) d.
  Proof.
    induction d as [|c d IH].
    - intros b W _. exists b. cbn [append_chars]. rewrite app_nil_r. split; auto. split; auto. split; auto. lia.
    - exact (seqM _ _ [c] d (charM c) IH).
  Qed.
  Lemma numberM d : appendsM (append_number junk more d) d.
  Proof.
    intros b W H. destruct (number_ok junk more Hjunk Hmore d b W H) as (b' & E & W' & T). exists b'. split; [exact E|]. split; [exact W'|]. split; [exact T|].
    pose proof (size_of _ _ _ W W' T) as S. unfold append_number in E.
    assert (L : blen (List.rev d) = blen d) by (unfold blen; now rewrite rev_length).
    destruct (charsM (List.rev d) b W ltac:(lia)) as (b1 & E1 & W1 & T1 & A1). rewrite E1 in E. cbn [bind] in E.
    unfold detach in E. rewrite (wf_shared _ W1) in E. cbn [bind] in E. injection E as <-. cbn [turn b_alloc b_size]. exact A1.
  Qed.
  Definition wop_text (o : wop) : bytes := match o with WBytes s => s | WChar c => [c] | WNumber d => d end.
  Lemma wopsM l : appendsM (do_wops junk more salloc sraw l) (flat_map wop_text l).
  Proof.
    induction l as [|o l IH].
    - intros b W _. exists b. cbn. rewrite app_nil_r. split; auto. split; auto. split; auto. lia.
    - apply (seqM _ _ (wop_text o) (flat_map wop_text l)); auto. destruct o; [apply bytesM|apply charM|apply numberM].
  Qed.

  (** ** One request *)
  (* the buffer between requests *)
  Definition idle (b : ba) : Prop := b = null_ba \/ WF b /\ b_size b = 0 /\ b_alloc b <= Z.max 8192 (more 16384).
  Lemma reserved b : idle b -> exists b', (if b_alloc b <? 8192 then reserve junk 8192 b else Some b) = Some b' /\
    WF b' /\ b_size b' = 0 /\ b_alloc b' <= Z.max 8192 (more 16384).
  Proof.
    intros [-> |(W & S & A)].
    - eexists. split; [reflexivity|]. split; [|split; [reflexivity|cbn [b_alloc]; lia]].
      split; cbn [b_static b_shared b_alloc b_size b_mem]; auto; [vm_compute; split; discriminate|].
      change (Z.min 8192 (b_size null_ba)) with 0. cbn [Z.to_nat firstn app b_mem null_ba]. pose proof (Hjunk [NUL] (8192 - 0) ltac:(lia)) as J.
      unfold blen in *. cbn [length]. lia.
    - destruct (Z.ltb_spec (b_alloc b) 8192); [|exists b; auto]. unfold reserve. rewrite (wf_shared _ W). cbn [orb].
      destruct (Z.ltb_spec (b_alloc b) 8192); [|lia].
      destruct (realloc_ok junk Hjunk 8192 b W ltac:(lia)) as (b' & -> & W' & _ & A' & S'). exists b'. rewrite A', S'. split; auto. split; auto. split; auto. lia.
  Qed.
  Lemma finished b : WF b -> b_alloc b <= Z.max (Z.max 8192 (more 16384)) (more (b_size b)) -> idle (finish b).
  Proof.
    intros [S1 S2 S M] A. unfold finish. destruct (Z.ltb_spec 16384 (b_size b)); [now left|right].
    split; [split; cbn [set_size b_static b_shared b_alloc b_size b_mem]; auto; lia|]. split; [reflexivity|]. cbn [set_size b_alloc].
    pose proof (Hmono (b_size b) 16384 ltac:(lia)). lia.
  Qed.
  Lemma empty_text b : WF b -> b_size b = 0 -> text b = [].
  Proof. intros W S. pose proof (text_len _ W) as L. unfold blen in L. destruct (text b); [auto|cbn [length] in L; lia]. Qed.
  Lemma fold_lines hs : forall b : bytes, fold_left (fun b h => b ++ fst h ++ lit ": " ++ snd h ++ CRLF) hs b = b ++ flat_map (fun h : header => fst h ++ lit ": " ++ snd h ++ CRLF) hs.
  Proof. induction hs as [|h hs IH]; intros b; cbn [fold_left flat_map]; [now rewrite app_nil_r|]. now rewrite IH, <- app_assoc. Qed.
  Lemma lines_text hs : flat_map wop_text (flat_map (fun h : header => [WBytes (fst h); WBytes (lit ": "); WBytes (snd h); WBytes CRLF]) hs)
    = flat_map (fun h : header => fst h ++ lit ": " ++ snd h ++ CRLF) hs.
  Proof. induction hs as [|h hs IH]; [reflexivity|]. cbn [flat_map app wop_text]. rewrite IH, app_nil_r || rewrite IH. now rewrite <- !app_assoc. Qed.
  Lemma lines_size hs : blen (flat_map (fun h : header => fst h ++ lit ": " ++ snd h ++ CRLF) hs) = fold_right (fun h n => blen (fst h) + blen (snd h) + 4 + n) 0 hs.
  Proof.
    induction hs as [|h hs IH]; [reflexivity|]. cbn [flat_map fold_right]. rewrite !blen_app', IH. change (blen (lit ": ")) with 2. change (blen CRLF) with 2. lia.
  Qed.

  Lemma data_size (data : bytes) : blen data <= 2147483647 -> exists d, appendNumber 10 (blen data) = Some d /\ Canonical 10 d (blen data) /\ blen d <= 10.
  Proof.
    intros H. pose proof (blen_nonneg data). destruct (appendNumber_ok 10 (blen data)) as (d & E & C); [lia|unfold INT_MIN, INT_MAX; lia|].
    exists d. split; auto. split; auto. pose proof (canonical_size d (blen data) 10 C ltac:(lia) ltac:(lia)). lia.
  Qed.
  Lemma wsize_ge r : 0 <= blen (wq_method r) /\ 0 <= blen (wq_path r) /\ 0 <= blen (wq_data r) /\ 0 <= fold_right (fun h n => blen (fst h) + blen (snd h) + 4 + n) 0 (wq_headers r).
  Proof. pose proof (lines_size (wq_headers r)). pose proof (blen_nonneg (flat_map (fun h : header => fst h ++ lit ": " ++ snd h ++ CRLF) (wq_headers r))).
    split; [apply blen_nonneg|]. split; [apply blen_nonneg|]. split; [apply blen_nonneg|lia]. Qed.
  (* the head, then nothing or the data *)
  Definition head_text (method path : bytes) (hs : list header) (len : bytes) : bytes :=
    method ++ lit " " ++ path ++ lit " HTTP/1.1" ++ CRLF ++ flat_map (fun h => fst h ++ lit ": " ++ snd h ++ CRLF) hs ++ len ++ CRLF.
  Lemma head_size method path hs len : blen (head_text method path hs len) =
    blen method + blen path + fold_right (fun h n => blen (fst h) + blen (snd h) + 4 + n) 0 hs + blen len + 14.
  Proof.
    unfold head_text. rewrite !blen_app', lines_size. change (blen (lit " ")) with 1. change (blen (lit " HTTP/1.1")) with 9. change (blen CRLF) with 2. lia.
  Qed.
  Lemma ops_text method path hs l len : flat_map wop_text l = len ->
    flat_map wop_text ([WBytes method; WChar SP; WBytes path; WBytes (lit " HTTP/1.1" ++ CRLF)]
        ++ flat_map (fun h : header => [WBytes (fst h); WBytes (lit ": "); WBytes (snd h); WBytes CRLF]) hs ++ l ++ [WBytes CRLF]) = head_text method path hs len.
  Proof.
    intros E. rewrite !flat_map_app, lines_text, E. unfold head_text. cbn [flat_map wop_text]. rewrite !app_nil_r, <- !app_assoc. reflexivity.
  Qed.
  Lemma match_ne {A} (d : bytes) (a b : A) : d <> [] -> match d with [] => a | _ => b end = b.
  Proof. now destruct d. Qed.
  Lemma write_ok r b : idle b -> wsize r <= 2147483647 ->
    exists ws b', write_request junk more salloc sraw (wq_method r) (wq_path r) (wq_headers r) (wq_data r) b = Some (ws, b') /\ idle b' /\
      RequestBytes (wq_method r) (wq_path r) (wq_headers r) (wq_data r) (concat ws) /\
      writeRequest (wq_method r) (wq_path r) (wq_headers r) (wq_data r) = Some ws.
  Proof.
    intros I Sz. destruct r as [m p hs data]. cbn [wq_method wq_path wq_headers wq_data]. unfold wsize in Sz. cbn [wq_method wq_path wq_headers wq_data] in Sz.
    destruct (wsize_ge (mkWR m p hs data)) as (G1 & G2 & G3 & G4). cbn [wq_method wq_path wq_headers wq_data] in *.
    unfold write_request. destruct (reserved b I) as (b1 & -> & W1 & S1 & A1). cbn [bind].
    destruct data as [|x data].
    - unfold request_ops. cbn [bind].
      pose proof (wopsM ([WBytes m; WChar SP; WBytes p; WBytes (lit " HTTP/1.1" ++ CRLF)]
        ++ flat_map (fun h : header => [WBytes (fst h); WBytes (lit ": "); WBytes (snd h); WBytes CRLF]) hs ++ [] ++ [WBytes CRLF])) as F.
      rewrite (ops_text m p hs [] [] eq_refl) in F. pose proof (head_size m p hs []) as HS. change (blen []) with 0 in *.
      destruct (F b1 W1 ltac:(lia)) as (b2 & E2 & W2 & T2 & A2).
      match goal with |- context [do_wops ?a ?b ?c ?d ?l ?e] => replace (do_wops a b c d l e) with (Some b2) by (symmetry; exact E2) end. cbn [bind].
      eexists _, _. split; [reflexivity|]. split; [apply finished; auto; lia|].
      rewrite (empty_text b1 W1 S1) in T2. cbn [app] in T2. rewrite T2. cbn [concat]. rewrite app_nil_r. split.
      + exists []. split; [now left|]. unfold head_text. cbn [app]. now rewrite !app_nil_r.
      + unfold writeRequest. rewrite fold_lines. unfold head_text. cbn [app]. now rewrite <- !app_assoc.
    - assert (NE : x :: data <> []) by discriminate. set (data' := x :: data) in *. clearbody data'. clear x data. destruct (data_size data' ltac:(lia)) as (d & E & C & L). unfold request_ops, writeRequest. rewrite !(match_ne data') by exact NE.
      rewrite to_int_small by lia. rewrite E. cbn [option_map bind].
      set (len := lit "Content-Length: " ++ d ++ CRLF).
      assert (EL : flat_map wop_text [WBytes (lit "Content-Length: "); WNumber d; WBytes CRLF] = len) by (cbn [flat_map wop_text]; now rewrite !app_nil_r).
      pose proof (wopsM ([WBytes m; WChar SP; WBytes p; WBytes (lit " HTTP/1.1" ++ CRLF)]
        ++ flat_map (fun h : header => [WBytes (fst h); WBytes (lit ": "); WBytes (snd h); WBytes CRLF]) hs ++ [WBytes (lit "Content-Length: "); WNumber d; WBytes CRLF] ++ [WBytes CRLF])) as F.
      rewrite (ops_text m p hs _ len EL) in F. pose proof (head_size m p hs len) as HS.
      assert (LL : blen len = 18 + blen d) by (unfold len; rewrite !blen_app'; change (blen (lit "Content-Length: ")) with 16; change (blen CRLF) with 2; lia).
      destruct (F b1 W1 ltac:(lia)) as (b2 & E2 & W2 & T2 & A2).
      match goal with |- context [do_wops ?a ?b ?c ?d ?l ?e] => replace (do_wops a b c d l e) with (Some b2) by (symmetry; exact E2) end. cbn [bind]. pose proof (size_of _ _ _ W1 W2 T2) as S2.
      rewrite (empty_text b1 W1 S1) in T2. cbn [app] in T2.
      assert (RB : RequestBytes m p hs data' (head_text m p hs len ++ data')).
      { exists len. split; [right; split; [exact NE|exists d; auto]|]. unfold head_text. now rewrite <- !app_assoc. }
      assert (HT : fold_left (fun b h => b ++ fst h ++ lit ": " ++ snd h ++ CRLF) hs (m ++ lit " " ++ p ++ lit " HTTP/1.1" ++ CRLF) ++
                   lit "Content-Length: " ++ d ++ CRLF ++ CRLF = head_text m p hs len).
      { rewrite fold_lines. unfold head_text, len. now rewrite <- !app_assoc. }
      rewrite HT.
      destruct (Z.ltb_spec (blen data') 4096).
      + destruct (bytesM data' b2 W2 ltac:(lia)) as (b3 & -> & W3 & T3 & A3). cbn [bind]. pose proof (size_of _ _ _ W2 W3 T3).
        pose proof (wf_size _ W2). pose proof (Hmono (b_size b2) (b_size b3) ltac:(lia)).
        eexists _, _. split; [reflexivity|]. split; [apply finished; auto; lia|]. rewrite T3, T2. cbn [concat]. rewrite app_nil_r. auto.
      + eexists _, _. split; [reflexivity|]. split; [apply finished; auto; lia|]. rewrite T2. cbn [concat]. rewrite app_nil_r. auto.
  Qed.

  (** ** All histories *)
  Definition good (l : list wact) (w w' : writer) : Prop :=
    idle (wr_buf w') /\ exists out, wr_out w' = wr_out w ++ out /\
      forall d, exists bs, Forall2 (fun r b => RequestBytes (wq_method r) (wq_path r) (wq_headers r) (wq_data r) b) (requests_to d (wr_dev w) l) bs /\
        concat (map snd (filter (fun x => (fst x =? d)%nat) out)) = concat bs.
  Lemma step_calls w a : wstep junk more salloc sraw w a =
    match a with WDevice d => Some (mkWr d (wr_buf w) (wr_out w)) | _ =>
      match call_of a with Some r => w_write junk more salloc sraw (wq_method r) (wq_path r) (wq_headers r) (wq_data r) w | None => Some w end end.
  Proof. destruct a; reflexivity. Qed.
  Lemma filter_pairs d e (ws : list bytes) : map snd (filter (fun x : nat * bytes => (fst x =? d)%nat) (map (fun b => (e, b)) ws)) = if (e =? d)%nat then ws else [].
  Proof.
    induction ws as [|b ws IH]; [now destruct (e =? d)%nat|]. cbn [map filter fst]. destruct (e =? d)%nat; cbn [map snd]; [now rewrite IH|exact IH].
  Qed.
  Lemma all_good l : forall w, idle (wr_buf w) -> Forall wsmall l -> exists w', wrun junk more salloc sraw w l = Some w' /\ good l w w'.
  Proof.
    induction l as [|a l IH]; intros w I F.
    - exists w. split; [reflexivity|]. split; auto. exists []. split; [now rewrite app_nil_r|]. intros d. exists []. split; [constructor|reflexivity].
    - inversion F as [|? ? Fa Fl]; subst. cbn [wrun]. rewrite step_calls. unfold wsmall in Fa.
      assert (X : forall r, call_of a = Some r -> exists w', bind (w_write junk more salloc sraw (wq_method r) (wq_path r) (wq_headers r) (wq_data r) w)
                    (fun w => wrun junk more salloc sraw w l) = Some w' /\ good (a :: l) w w').
      { intros r E. rewrite E in Fa.
        assert (RT : forall d, requests_to d (wr_dev w) (a :: l) =
          (match wr_dev w with Some c => if (c =? d)%nat then [r] else [] | None => [] end) ++ requests_to d (wr_dev w) l).
        { intros d. destruct a; try discriminate; cbn [requests_to]; injection E as <-; cbn [call_of]; destruct (wr_dev w); reflexivity. }
        unfold w_write. destruct (wr_dev w) as [e|] eqn:ED.
        - destruct (write_ok r (wr_buf w) I Fa) as (ws & b' & -> & I' & RB & _). cbn [bind snd fst].
          destruct (IH (mkWr (Some e) b' (wr_out w ++ map (fun b => (e, b)) ws)) I' Fl) as (w' & -> & G1 & out & G2 & G3). exists w'. split; [reflexivity|].
          split; auto. cbn [wr_out wr_dev] in *. exists (map (fun b => (e, b)) ws ++ out). split; [now rewrite G2, app_assoc|].
          intros d. destruct (G3 d) as (bs & F2 & C2). rewrite ED, RT. rewrite filter_app, map_app, filter_pairs, concat_app, C2.
          destruct (e =? d)%nat.
          + exists (concat ws :: bs). split; [constructor; auto|reflexivity].
          + exists bs. auto.
        - cbn [bind]. destruct (IH w I Fl) as (w' & -> & G1 & out & G2 & G3). exists w'. split; [reflexivity|]. split; auto. exists out. split; auto.
          intros d. rewrite ED, RT. specialize (G3 d). rewrite ED in G3. exact G3. }
      destruct a as [d|p hs|p hs|p hs data|p hs data|p hs|m p hs data]; try (now apply X).
      cbn [bind]. destruct (IH (mkWr d (wr_buf w) (wr_out w)) I Fl) as (w' & -> & G1 & out & G2 & G3). exists w'. split; [reflexivity|].
      split; auto. exists out. auto.
  Qed.
End Memory.

(** ** The theorems *)
(* malloc/realloc and Qt's growth policy *)
Definition growing_ok (junk : bytes -> Z -> bytes) (more : Z -> Z) : Prop :=
  memory_ok junk more /\ forall n m, 0 <= n <= m -> more n <= more m.

(** Every device gets exactly the requests made while it was set, one after the other, whatever was written before and to
    whom; nothing is written outside of the buffer. *)
Theorem C81_requests : forall junk more salloc sraw l, growing_ok junk more -> Forall wsmall l ->
  exists w, wrun junk more salloc sraw writer0 l = Some w /\
    forall d, exists bs, Forall2 (fun r b => RequestBytes (wq_method r) (wq_path r) (wq_headers r) (wq_data r) b) (requests_to d None l) bs /\
      given d w = concat bs.
Proof.
  intros junk more salloc sraw l ((Hj & Hm) & Hmono) F.
  destruct (all_good junk more salloc sraw Hj Hm Hmono l writer0 (or_introl eq_refl) F) as (w & E & _ & out & O & G). exists w. split; [exact E|].
  intros d. destruct (G d) as (bs & B1 & B2). exists bs. split; [exact B1|]. unfold given. rewrite O. exact B2.
Qed.

(** The memory kept between requests is bounded. *)
Theorem C81_kept : forall junk more salloc sraw l w, growing_ok junk more -> Forall wsmall l ->
  wrun junk more salloc sraw writer0 l = Some w -> b_alloc (wr_buf w) <= Z.max 8192 (more 16384) /\ text (wr_buf w) = [].
Proof.
  intros junk more salloc sraw l w ((Hj & Hm) & Hmono) F E.
  destruct (all_good junk more salloc sraw Hj Hm Hmono l writer0 (or_introl eq_refl) F) as (w' & E' & [I|(W & S & A)] & _); rewrite E in E'; injection E' as <-.
  - rewrite I. split; [cbn [null_ba b_alloc]; lia|reflexivity].
  - split; [exact A|]. now apply empty_text.
Qed.

(** The pieces a writer with any history hands over are those of the request writer of the client model (C45, C60). *)
Theorem C81_client : forall junk more salloc sraw l w m p hs data d, growing_ok junk more -> Forall wsmall (l ++ [WWrite m p hs data]) ->
  wrun junk more salloc sraw writer0 l = Some w -> wr_dev w = Some d ->
  exists w' ws, wstep junk more salloc sraw w (WWrite m p hs data) = Some w' /\ writeRequest m p hs data = Some ws /\
    wr_out w' = wr_out w ++ map (fun b => (d, b)) ws.
Proof.
  intros junk more salloc sraw l w m p hs data d ((Hj & Hm) & Hmono) F E D. apply Forall_app in F as (F1 & F2).
  destruct (all_good junk more salloc sraw Hj Hm Hmono l writer0 (or_introl eq_refl) F1) as (w1 & E1 & I & _). rewrite E in E1. injection E1 as <-.
  inversion F2 as [|? ? Sm _]; subst. destruct (write_ok junk more salloc sraw Hj Hm Hmono (mkWR m p hs data) (wr_buf w) I Sm) as (ws & b' & Ew & _ & _ & Wr).
  cbn [wstep]. unfold w_write. rewrite D. cbn [wq_method wq_path wq_headers wq_data] in *. rewrite Ew. cbn [bind fst snd].
  eexists _, ws. split; [reflexivity|]. split; [exact Wr|]. reflexivity.
Qed.

(** A case: three devices, content in the buffer, content of its own, a head that makes the buffer too large to be kept,
    calls without a device. *)
Definition big_head : header := (lit "X", repeat "a"%char (Z.to_nat 20000)).
Definition busy_writer : list wact :=
  [WGet (lit "/lost") []; WDevice (Some 0%nat); WPost (lit "/a") [(lit "Host", lit "h")] (lit "abc"); WDevice (Some 1%nat); WPut (lit "/b") [big_head] (repeat "z"%char (Z.to_nat 5000));
   WDevice (Some 0%nat); WDelete (lit "/c") []; WDevice None; WHead (lit "/lost") []].
Definition sum_up (o : option writer) : option (bytes * Z * Z) :=
  match o with Some w => Some (given 0 w, blen (given 1 w), b_alloc (wr_buf w)) | None => None end.
Example C81_case : growing_ok plain_memory doubling /\ Forall wsmall busy_writer /\ map wq_path (requests_to 0 None busy_writer) = [lit "/a"; lit "/c"] /\
  sum_up (wrun plain_memory doubling (fun _ => 0) (fun _ => false) writer0 busy_writer) =
    Some (lit "POST /a HTTP/1.1" ++ CRLF ++ lit "Host: h" ++ CRLF ++ lit "Content-Length: 3" ++ CRLF ++ CRLF ++ lit "abc" ++ lit "DELETE /c HTTP/1.1" ++ CRLF ++ CRLF,
          25046, 8192).
Proof.
  split; [split; [apply plain_ok|unfold doubling; intros; lia]|]. split.
  - repeat constructor; unfold wsmall; cbn [call_of busy_writer]; try exact Logic.I; apply Z.leb_le; vm_compute; reflexivity.
  - split; vm_compute; reflexivity.
Qed.

(** Two things the class does not do: data without a length of its own is not refused but made ambiguous by a
    Content-Length header of the caller, which is sent as well; a method or path that is empty gives a text that is no
    request.  (For requests of the client: C45_own_length_refuted, C45_no_path_refuted.) *)
Theorem C81_own_length_refuted : exists l, sum_up (wrun plain_memory doubling (fun _ => 0) (fun _ => false) writer0 l) =
  Some (lit "POST / HTTP/1.1" ++ CRLF ++ lit "Content-Length: 9" ++ CRLF ++ lit "Content-Length: 3" ++ CRLF ++ CRLF ++ lit "abc", 0, 8192).
Proof. exists [WDevice (Some 0%nat); WPost (lit "/") [(lit "Content-Length", lit "9")] (lit "abc")]. vm_compute. reflexivity. Qed.
Print Assumptions C81_requests.
Print Assumptions C81_client.
