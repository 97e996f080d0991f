(** PROPERTY C75: the text of the log lines.  Model: LogText.v. *)
From Verif Require Import Bytes ByteHelpers Helpers TextSpec CIProofs HelpersProofs ReqGrammar Conn ConnSpec ConnText ConnLog ConnSend PropsConn Handlers PropsHandlers LogText.
Open Scope Z_scope.

(** ** Specification *)
(** a digit, as Unicode sees it, and its value *)
Inductive DigitOf : ascii -> Z -> Prop :=
| DO_dec c : is_digit c = true -> DigitOf c (byte_val c - 48)
| DO_1 : DigitOf "185" 1 | DO_2 : DigitOf "178" 2 | DO_3 : DigitOf "179" 3.
(** a place marker of QString::arg, "%" ["L"] digit [digit], stands in the text *)
Inductive Marker : bytes -> Z -> Prop :=
| M_one pre l d post n : l = [] \/ l = lit "L" -> DigitOf d n -> (forall e t w, post = e :: t -> ~ DigitOf e w) ->
    Marker (pre ++ lit "%" ++ l ++ d :: post) n
| M_two pre l d e post v w : l = [] \/ l = lit "L" -> DigitOf d v -> DigitOf e w ->
    Marker (pre ++ lit "%" ++ l ++ d :: e :: post) (10 * v + w).
(** no place marker that a later text of the line would replace *)
Definition harmless (s : bytes) : Prop := forall n, Marker s n -> 8 < n.

(** seconds, with three decimals *)
Definition Seconds (s : bytes) (ms : Z) : Prop :=
  exists a b, Canonical 10 a (ms / 1000) /\ Digits 10 b (ms mod 1000) /\ length b = 3%nat /\ s = a ++ lit "." ++ b.
Definition request_text (x : info) : bytes :=
  i_address x ++ lit " - - [" ++ i_date x ++ lit "] """ ++ i_method x ++ lit " " ++ i_uri x ++ lit " " ++ i_version x ++ lit """".
Inductive Answered (x : info) : bytes -> Prop :=
| Ans a b c : Canonical 10 a (i_status x) -> Canonical 10 b (i_length x) -> Seconds c (i_ms x) ->
    Answered x (lit " " ++ a ++ lit " " ++ b ++ lit " " ++ c).
Inductive ShownLine : logmode -> line info -> bytes -> Prop :=
| SL_begin m i x : ShownLine m (LBegin _ i x) (lit "[BEGIN] " ++ request_text x ++ lit " - - -")
| SL_completed i x t : Answered x t -> ShownLine LogCompleted (LEnd _ i x) (request_text x ++ t)
| SL_end i x t : Answered x t -> ShownLine Trace (LEnd _ i x) (lit "[ END ] " ++ request_text x ++ t)
| SL_close m i x t : Answered x t -> ShownLine m (LClose _ i x) (lit "[CLOSE] " ++ request_text x ++ t).

Definition info_of (l : line info) : info := match l with LBegin _ _ x | LEnd _ _ x | LClose _ _ x => x end.
(** the texts of the line as they are: no NUL, which would end them, and no place marker *)
Definition plain_info (x : info) : Prop :=
  (harmless (i_address x) /\ harmless (i_date x) /\ harmless (i_method x) /\ harmless (i_uri x) /\ harmless (i_version x)) /\
  (~ In NUL (i_method x) /\ ~ In NUL (i_uri x) /\ ~ In NUL (i_version x)) /\ 0 <= i_ms x.

(** ** The markers found are those that are there *)
Lemma digitValue_ok c v : digitValue c = Some v -> DigitOf c v.
Proof.
  unfold digitValue. destruct (is_digit c) eqn:D; [intros [= <-]; now constructor|].
  destruct (Ascii.eqb_spec c "185"); [intros [= <-]; subst; constructor|].
  destruct (Ascii.eqb_spec c "178"); [intros [= <-]; subst; constructor|].
  destruct (Ascii.eqb_spec c "179"); [intros [= <-]; subst; constructor|]. discriminate.
Qed.
Lemma digitValue_none c v : digitValue c = None -> ~ DigitOf c v.
Proof. intros E D. destruct D as [c D| | |]; try discriminate. unfold digitValue in E. now rewrite D in E. Qed.

Lemma Marker_cons c s n : Marker s n -> Marker (c :: s) n.
Proof.
  destruct 1 as [pre l d post n L D N|pre l d e post v w L D E].
  - exact (M_one (c :: pre) l d post n L D N).
  - exact (M_two (c :: pre) l d e post v w L D E).
Qed.
Lemma Marker_app p s n : Marker s n -> Marker (p ++ s) n.
Proof. induction p; cbn [app]; auto using Marker_cons. Qed.

Lemma scan_marker n lo raw : forall k s, (length s <= k)%nat -> In (Mark n lo raw) (scan s) -> Marker s n.
Proof.
  induction k as [|k IH]; intros s K H; [destruct s; [destruct H|cbn in K; lia]|].
  destruct s as [|c t]; [destruct H|]. cbn [length] in K. cbn [scan] in H. destruct (Ascii.eqb_spec c "%") as [->|_]; cbn [negb] in H.
  2: { destruct H as [H|H]; [discriminate|]. apply Marker_cons, IH; auto. lia. }
  destruct t as [|l t1]; [destruct H as [H|[]]; discriminate|]. cbn [length] in K.
  destruct (Ascii.eqb_spec l "L") as [->|NL].
  - destruct t1 as [|d t2]; [destruct H as [H|[H|[]]]; discriminate|]. cbn [length] in K. destruct (digitValue d) as [v|] eqn:Dv.
    2: { destruct H as [H|[H|H]]; try discriminate. do 2 apply Marker_cons. apply IH; auto. cbn [length]. lia. }
    apply digitValue_ok in Dv. destruct t2 as [|e t3].
    + destruct H as [H|[]]. injection H as <- <- <-. apply (M_one [] (lit "L") d []); auto. discriminate.
    + cbn [length] in K. destruct (digitValue e) as [w|] eqn:Ew.
      * destruct H as [H|H]; [injection H as <- <- <-; apply (M_two [] (lit "L") d e t3); auto using digitValue_ok|].
        do 4 apply Marker_cons. apply IH; auto. lia.
      * destruct H as [H|H]; [injection H as <- <- <-|].
        -- apply (M_one [] (lit "L") d (e :: t3)); auto. intros e' t' w [= <- <-]. eauto using digitValue_none.
        -- do 3 apply Marker_cons. apply IH; auto. cbn [length]. lia.
  - destruct (digitValue l) as [v|] eqn:Dv.
    2: { destruct H as [H|H]; try discriminate. apply Marker_cons. apply IH; auto. cbn [length]. lia. }
    apply digitValue_ok in Dv. destruct t1 as [|e t3].
    + destruct H as [H|[]]. injection H as <- <- <-. apply (M_one [] [] l []); auto. discriminate.
    + cbn [length] in K. destruct (digitValue e) as [w|] eqn:Ew.
      * destruct H as [H|H]; [injection H as <- <- <-; apply (M_two [] [] l e t3); auto using digitValue_ok|].
        do 3 apply Marker_cons. apply IH; auto. lia.
      * destruct H as [H|H]; [injection H as <- <- <-|].
        -- apply (M_one [] [] l (e :: t3)); auto. intros e' t' w [= <- <-]. eauto using digitValue_none.
        -- do 2 apply Marker_cons. apply IH; auto. cbn [length]. lia.
Qed.

(** ** Texts without low markers stay as they are *)
Definition above (n : Z) (s : bytes) : Prop := forall m lo raw, In (Mark m lo raw) (scan s) -> n < m.
Definition aboveb (n : Z) (s : bytes) : bool := forallb (fun t => match t with Txt _ => true | Mark m _ _ => n <? m end) (scan s).
Lemma aboveb_ok n s : aboveb n s = true -> above n s.
Proof. unfold aboveb. rewrite forallb_forall. intros H m lo raw I. apply H in I. now apply Z.ltb_lt. Qed.
Lemma harmless_above n s : harmless s -> n <= 8 -> above n s.
Proof. intros H L m lo raw I. apply (scan_marker m lo raw (length s)), H in I; lia. Qed.

Definition safe (s : bytes) : Prop := match s with [] => True | c :: _ => digitValue c = None /\ c <> "L"%char end.
Lemma scan_app : forall k a b, (length a <= k)%nat -> safe b -> scan (a ++ b) = scan a ++ scan b.
Proof.
  induction k as [|k IH]; intros a b K S; [destruct a; [reflexivity|cbn in K; lia]|].
  destruct a as [|c t]; [reflexivity|]. cbn [length] in K. cbn [app]. cbn [scan].
  destruct (Ascii.eqb_spec c "%") as [->|_]; cbn [negb]; [|rewrite IH by (auto; lia); reflexivity].
  destruct t as [|l t1].
  - cbn [app]. destruct b as [|y b]; [reflexivity|]. destruct S as (S1 & S2). rewrite S1.
    destruct (Ascii.eqb_spec y "L"); [contradiction|]. reflexivity.
  - cbn [length] in K. cbn [app]. destruct (Ascii.eqb_spec l "L") as [->|NL].
    + destruct t1 as [|d t2].
      * cbn [app]. destruct b as [|y b]; [reflexivity|]. destruct S as (S1 & S2). rewrite S1. reflexivity.
      * cbn [length] in K. cbn [app]. destruct (digitValue d) as [v|].
        2: { change (d :: t2 ++ b) with ((d :: t2) ++ b); rewrite (IH (d :: t2) b) by (auto; cbn [length]; lia); reflexivity. }
        destruct t2 as [|e t3].
        -- cbn [app]. destruct b as [|y b]; [reflexivity|]. destruct S as (S1 & S2). rewrite S1. reflexivity.
        -- cbn [length] in K. cbn [app]. destruct (digitValue e); [rewrite IH by (auto; lia); reflexivity|].
           change (e :: t3 ++ b) with ((e :: t3) ++ b); rewrite (IH (e :: t3) b) by (auto; cbn [length]; lia); reflexivity.
    + destruct (digitValue l) as [v|].
      2: { change (l :: t1 ++ b) with ((l :: t1) ++ b); rewrite (IH (l :: t1) b) by (auto; cbn [length]; lia); reflexivity. }
      destruct t1 as [|e t3].
      * cbn [app]. destruct b as [|y b]; [reflexivity|]. destruct S as (S1 & S2). rewrite S1. reflexivity.
      * cbn [length] in K. cbn [app]. destruct (digitValue e); [rewrite IH by (auto; lia); reflexivity|].
        change (e :: t3 ++ b) with ((e :: t3) ++ b); rewrite (IH (e :: t3) b) by (auto; cbn [length]; lia); reflexivity.
Qed.
Lemma above_app n a b : above n a -> above n b -> safe b -> above n (a ++ b).
Proof. intros A B S m lo raw. rewrite (scan_app (length a)) by auto. rewrite in_app_iff. intros [H|H]; eauto. Qed.

Lemma replace_id n a la : forall k s, (length s <= k)%nat -> above n s -> replace n a la (scan s) = s.
Proof.
  induction k as [|k IH]; intros s K H; [destruct s; [reflexivity|cbn in K; lia]|].
  assert (R : forall m lo raw u, n < m -> replace n a la (Mark m lo raw :: u) = raw ++ replace n a la u).
  { intros m lo raw u L. unfold replace. cbn [flat_map]. destruct (Z.eqb_spec m n); [lia|]. reflexivity. }
  assert (T : forall c u, replace n a la (Txt c :: u) = c :: replace n a la u) by reflexivity.
  destruct s as [|c t]; [reflexivity|]. cbn [length] in K. unfold above in H. cbn [scan] in H |- *.
  destruct (Ascii.eqb_spec c "%") as [->|_]; cbn [negb] in H |- *.
  2: { rewrite T, IH; auto; [lia|]. intros m lo raw I. apply (H m lo raw). now right. }
  destruct t as [|l t1]; [reflexivity|]. cbn [length] in K. destruct (Ascii.eqb_spec l "L") as [->|NL].
  - destruct t1 as [|d t2]; [reflexivity|]. cbn [length] in K. destruct (digitValue d) as [v|] eqn:Dv.
    2: { rewrite !T, IH; auto; [cbn [length]; lia|]. intros m lo raw I. apply (H m lo raw). right. now right. }
    destruct t2 as [|e t3].
    + rewrite R by (eapply H; left; reflexivity). reflexivity.
    + cbn [length] in K. destruct (digitValue e) as [w|].
      * rewrite R by (eapply H; left; reflexivity). rewrite IH; [reflexivity|lia|]. intros m lo raw I. apply (H m lo raw). now right.
      * rewrite R by (eapply H; left; reflexivity). rewrite IH; [reflexivity|cbn [length]; lia|]. intros m lo raw I. apply (H m lo raw). now right.
  - destruct (digitValue l) as [v|] eqn:Dv.
    2: { rewrite T, IH; auto; [cbn [length]; lia|]. intros m lo raw I. apply (H m lo raw). now right. }
    destruct t1 as [|e t3].
    + rewrite R by (eapply H; left; reflexivity). reflexivity.
    + cbn [length] in K. destruct (digitValue e) as [w|].
      * rewrite R by (eapply H; left; reflexivity). rewrite IH; [reflexivity|lia|]. intros m lo raw I. apply (H m lo raw). now right.
      * rewrite R by (eapply H; left; reflexivity). rewrite IH; [reflexivity|cbn [length]; lia|]. intros m lo raw I. apply (H m lo raw). now right.
Qed.

Lemma lowest_in ts : match lowest ts with None => True | Some n => exists lo raw, In (Mark n lo raw) ts end.
Proof.
  induction ts as [|[c|n lo raw] ts IH]; cbn [lowest]; auto.
  - destruct (lowest ts); auto. destruct IH as (lo & raw & I). exists lo, raw. now right.
  - destruct (lowest ts) as [m|]; [|exists lo, raw; now left]. destruct IH as (lo' & raw' & I).
    destruct (Z.min_spec n m) as [(_ & ->)|(_ & ->)]; [exists lo, raw; now left|exists lo', raw'; now right].
Qed.
Lemma lowest_le ts n lo raw : In (Mark n lo raw) ts -> exists m, lowest ts = Some m /\ m <= n.
Proof.
  induction ts as [|[c|k lo' raw'] ts IH]; intros I; [destruct I| |]; cbn [lowest].
  - destruct I as [I|I]; [discriminate|auto].
  - destruct I as [I|I].
    + injection I as -> -> ->. destruct (lowest ts) as [m|]; eexists; split; eauto; lia.
    + destruct (IH I) as (m & -> & L). eexists; split; eauto. lia.
Qed.

Definition mark_of (d : ascii) : bytes := ["%"%char; d].
Lemma qarg_mid pre d n post a la : digitValue d = Some n -> d <> "L"%char -> above n pre -> above n post ->
  match post with [] => True | c :: _ => digitValue c = None end ->
  qarg a la (pre ++ mark_of d ++ post) = pre ++ a ++ post.
Proof.
  intros D NL A B S.
  assert (E : scan (pre ++ mark_of d ++ post) = scan pre ++ Mark n false ["%"%char; d] :: scan post).
  { assert (SF : safe (mark_of d ++ post)) by (cbn; split; [reflexivity|discriminate]).
    rewrite (scan_app (length pre)); [|auto|exact SF]. f_equal. unfold mark_of. cbn [app]. cbn [scan].
    change (Ascii.eqb "%" "%") with true. cbn [negb]. destruct (Ascii.eqb_spec d "L"); [contradiction|]. rewrite D.
    destruct post as [|c post]; [reflexivity|]. rewrite S. reflexivity. }
  unfold qarg. rewrite E.
  destruct (lowest_le (scan pre ++ Mark n false ["%"%char; d] :: scan post) n false ["%"%char; d]) as (m & Hm & L).
  { rewrite in_app_iff. right. now left. }
  rewrite Hm. pose proof (lowest_in (scan pre ++ Mark n false ["%"%char; d] :: scan post)) as I. rewrite Hm in I. destruct I as (lo & raw & I).
  assert (m = n) as ->.
  { rewrite in_app_iff in I. destruct I as [I|[I|I]]; [apply A in I; lia|injection I as -> _ _; reflexivity|apply B in I; lia]. }
  unfold replace. rewrite flat_map_app. cbn [flat_map]. rewrite Z.eqb_refl.
  f_equal; [apply (replace_id n a la (length pre)); auto|]. f_equal. apply (replace_id n a la (length post)); auto.
Qed.

(** ** The entries *)
Lemma scan_plain : forall a b, ~ In "%"%char a -> scan (a ++ b) = map Txt a ++ scan b.
Proof.
  induction a as [|c a IH]; intros b N; [reflexivity|]. cbn [app scan map]. destruct (Ascii.eqb_spec c "%") as [->|_]; [destruct N; now left|].
  cbn [negb]. rewrite IH; auto. intros I. apply N. now right.
Qed.
Lemma above_text n a b : ~ In "%"%char a -> above n b -> above n (a ++ b).
Proof.
  intros N B m lo raw. rewrite scan_plain, in_app_iff by auto. intros [I|I]; [|eauto]. apply in_map_iff in I as (c & E & _). discriminate.
Qed.
Lemma above_nil n : above n [].
Proof. intros m lo raw []. Qed.
Lemma above_plain n a : ~ In "%"%char a -> above n a.
Proof. intros N. rewrite <- (app_nil_r a). apply above_text; auto using above_nil. Qed.
Lemma not_mem c s : mem c s = false -> ~ In c s.
Proof.
  unfold mem. intros H I. assert (existsb (Ascii.eqb c) s = true); [|congruence]. apply existsb_exists. exists c. split; auto. apply Ascii.eqb_refl.
Qed.
Lemma qstring_id s : ~ In NUL s -> qstring s = s.
Proof. intros N. unfold qstring. rewrite <- (app_nil_r s) at 1. apply until_nul_app; auto. Qed.

Definition mid : bytes := lit "%1 - - [%2] ""%3 %4 %5""".
Ltac abv := repeat first
  [ apply above_nil | assumption
  | apply above_text; [apply not_mem; reflexivity|] | apply above_text; [assumption|]
  | apply above_app; [apply harmless_above; [assumption|lia] | | cbn; split; [reflexivity|discriminate]] ].
Ltac closed_above := first [apply aboveb_ok; reflexivity
  | apply above_app; [apply aboveb_ok; reflexivity|assumption|assumption]].

Lemma texts_ok p q x : plain_info x -> ~ In "%"%char p -> above 5 q -> safe q -> texts x (p ++ mid ++ q) = p ++ request_text x ++ q.
Proof.
  intros ((H1 & H2 & H3 & H4 & H5) & (N3 & N4 & N5) & _) P A S. unfold texts. rewrite !qstring_id by auto.
  assert (S' : match q with [] => True | c :: _ => digitValue c = None end) by (destruct q; [auto|apply S]).
  assert (Ak : forall n, n <= 5 -> above n q) by (intros n L m lo raw I; apply A in I; lia).
  set (d := "x"%char). unfold argS, mid.
  replace (p ++ lit "%1 - - [%2] ""%3 %4 %5""" ++ q) with (p ++ mark_of "1" ++ lit " - - [%2] ""%3 %4 %5""" ++ q) by reflexivity.
  assert (A1 : above 1 q) by (apply Ak; lia). assert (A2 : above 2 q) by (apply Ak; lia). assert (A3 : above 3 q) by (apply Ak; lia).
  assert (A4 : above 4 q) by (apply Ak; lia).
  rewrite (qarg_mid p "1" 1); [|reflexivity|discriminate|now apply above_plain|closed_above|reflexivity].
  replace (p ++ i_address x ++ lit " - - [%2] ""%3 %4 %5""" ++ q) with ((p ++ i_address x ++ lit " - - [") ++ mark_of "2" ++ lit "] ""%3 %4 %5""" ++ q)
    by (rewrite <- !app_assoc; reflexivity).
  rewrite (qarg_mid _ "2" 2); [|reflexivity|discriminate|abv; apply above_plain, not_mem; reflexivity|closed_above|reflexivity].
  replace ((p ++ i_address x ++ lit " - - [") ++ i_date x ++ lit "] ""%3 %4 %5""" ++ q)
    with ((p ++ i_address x ++ lit " - - [" ++ i_date x ++ lit "] """) ++ mark_of "3" ++ lit " %4 %5""" ++ q)
    by (rewrite <- !app_assoc; reflexivity).
  rewrite (qarg_mid _ "3" 3); [|reflexivity|discriminate|abv; apply above_plain, not_mem; reflexivity|closed_above|reflexivity].
  replace ((p ++ i_address x ++ lit " - - [" ++ i_date x ++ lit "] """) ++ i_method x ++ lit " %4 %5""" ++ q)
    with ((p ++ i_address x ++ lit " - - [" ++ i_date x ++ lit "] """ ++ i_method x ++ lit " ") ++ mark_of "4" ++ lit " %5""" ++ q)
    by (rewrite <- !app_assoc; reflexivity).
  rewrite (qarg_mid _ "4" 4); [|reflexivity|discriminate|abv; apply above_plain, not_mem; reflexivity|closed_above|reflexivity].
  replace ((p ++ i_address x ++ lit " - - [" ++ i_date x ++ lit "] """ ++ i_method x ++ lit " ") ++ i_uri x ++ lit " %5""" ++ q)
    with ((p ++ i_address x ++ lit " - - [" ++ i_date x ++ lit "] """ ++ i_method x ++ lit " " ++ i_uri x ++ lit " ") ++ mark_of "5" ++ lit """" ++ q)
    by (rewrite <- !app_assoc; reflexivity).
  rewrite (qarg_mid _ "5" 5); [|reflexivity|discriminate|abv; apply above_plain, not_mem; reflexivity|closed_above|reflexivity].
  unfold request_text. rewrite <- !app_assoc. reflexivity.
Qed.

Lemma lowdigit_safe c : lowdigit c = true -> c <> "%"%char /\ c <> " "%char /\ c <> LF /\ c <> NUL.
Proof. intros H. repeat split; intros ->; discriminate. Qed.
Lemma number_ok n : 0 <= n -> Canonical 10 (number n) n /\ forallb lowdigit (number n) = true.
Proof.
  intros H. unfold number. destruct (digits_rev_ok 10 ltac:(lia) (S (Z.to_nat (Z.log2 n))) n) as (D & Lo & Z); [lia| |lia|].
  - rewrite Nat2Z.inj_succ, Z2Nat.id by apply Z.log2_nonneg. destruct (Z.eq_dec n 0) as [->|]; [reflexivity|]. apply Z.log2_spec. lia.
  - assert (L : forallb lowdigit (rev (digits_rev (S (Z.to_nat (Z.log2 n))) 10 n)) = true).
    { rewrite forallb_forall in *. intros c I. apply Lo. now apply in_rev. }
    split; auto. exists (rev (digits_rev (S (Z.to_nat (Z.log2 n))) 10 n)). rewrite Z.abs_eq by lia. destruct (Z.ltb_spec n 0); [lia|]. auto.
Qed.
Definition numchar (c : ascii) : bool := lowdigit c || mem c (lit "-.").
Lemma decimal_ok n : Canonical 10 (decimal n) n /\ forallb numchar (decimal n) = true.
Proof.
  unfold decimal. destruct (Z.ltb_spec n 0).
  - destruct (number_ok (- n) ltac:(lia)) as ((ds & D & E & L & Z) & Lo). split.
    + exists ds. rewrite Z.abs_opp in D. destruct (Z.ltb_spec (- n) 0); [lia|]. destruct (Z.ltb_spec n 0); [|lia]. subst. auto.
    + cbn [forallb]. apply andb_true_iff. split; [reflexivity|]. rewrite forallb_forall in *. intros c I. unfold numchar. now rewrite Lo.
  - destruct (number_ok n ltac:(lia)) as (C & Lo). split; auto. rewrite forallb_forall in *. intros c I. unfold numchar. now rewrite Lo.
Qed.
Lemma number_digit n : 0 <= n < 10 -> exists c, number n = [c] /\ digit_val c = Some n.
Proof.
  intros H. assert (E : n = Z.of_nat (Z.to_nat n)) by lia. rewrite E. assert (L : (Z.to_nat n < 10)%nat) by lia. revert L. generalize (Z.to_nat n). clear.
  intros n L. do 10 (destruct n as [|n]; [eexists; split; vm_compute; reflexivity|]). lia.
Qed.
Lemma pad3_ok n : 0 <= n < 1000 -> Digits 10 (pad3 n) n /\ length (pad3 n) = 3%nat.
Proof.
  intros H. unfold pad3. destruct (number_digit (n / 100)) as (a & -> & A).
  { split; [apply Z.div_pos; lia|apply Z.div_lt_upper_bound; lia]. }
  destruct (number_digit (n / 10 mod 10)) as (b & -> & B); [apply Z.mod_pos_bound; lia|].
  destruct (number_digit (n mod 10)) as (c & -> & C); [apply Z.mod_pos_bound; lia|]. split; [|reflexivity].
  assert (E : n = 10 * (10 * (n / 100) + n / 10 mod 10) + n mod 10).
  { replace (n / 100) with (n / 10 / 10) by (rewrite Z.div_div by lia; reflexivity).
    rewrite <- (Z.div_mod (n / 10) 10) by lia. apply Z.div_mod. lia. }
  eapply eq_ind with (P := Digits 10 _); [|symmetry; exact E]. apply (D_more 10 [a; b]); auto; [|apply Z.mod_pos_bound; lia].
  apply (D_more 10 [a]); auto; [|apply Z.mod_pos_bound; lia]. constructor; auto. apply Z.div_lt_upper_bound; lia.
Qed.
Lemma digits_lo n : 0 <= n -> forallb numchar (number n) = true.
Proof. intros H. destruct (number_ok n H) as (_ & L). rewrite forallb_forall in *. intros c I. unfold numchar. now rewrite L. Qed.
Lemma seconds_ok ms : 0 <= ms -> Seconds (seconds ms) ms /\ forallb numchar (seconds ms) = true.
Proof.
  intros H. assert (0 <= ms / 1000) by (apply Z.div_pos; lia). pose proof (Z.mod_pos_bound ms 1000 ltac:(lia)) as M.
  unfold seconds. split.
  - exists (number (ms / 1000)), (pad3 (ms mod 1000)). destruct (number_ok (ms / 1000)) as (C & _); auto. destruct (pad3_ok (ms mod 1000)); auto.
  - rewrite forallb_app, digits_lo by auto. cbn [forallb andb]. unfold pad3. rewrite !forallb_app.
    assert (0 <= ms mod 1000 / 100) by (apply Z.div_pos; lia).
    rewrite !digits_lo by (auto; apply Z.mod_pos_bound; lia). reflexivity.
Qed.
Lemma numchar_not c s : forallb numchar s = true -> numchar c = false -> ~ In c s.
Proof. intros H N I. rewrite forallb_forall in H. apply H in I. congruence. Qed.
Lemma num_nopercent s : forallb numchar s = true -> ~ In "%"%char s.
Proof. intros H. now apply numchar_not. Qed.

Lemma numbers_ok loc p x : above 8 p -> 0 <= i_ms x ->
  numbers loc x (p ++ lit " %6 %7 %8") = p ++ lit " " ++ decimal (i_status x) ++ lit " " ++ decimal (i_length x) ++ lit " " ++ seconds (i_ms x).
Proof.
  intros P M. destruct (decimal_ok (i_status x)) as (_ & A). destruct (decimal_ok (i_length x)) as (_ & B). destruct (seconds_ok (i_ms x) M) as (_ & C).
  apply num_nopercent in A, B, C. unfold numbers, argN.
  assert (P' : forall n, n <= 8 -> above n (p ++ lit " ")).
  { intros n L. apply above_app; [intros m lo raw I; apply P in I; lia|apply aboveb_ok; reflexivity|cbn; split; [reflexivity|discriminate]]. }
  assert (Q : forall n t, n <= 8 -> ~ In "%"%char t -> above n (p ++ lit " " ++ t)).
  { intros n t L N. apply above_app; [intros m lo raw I; apply P in I; lia| |cbn; split; [reflexivity|discriminate]].
    apply above_plain. rewrite in_app_iff. intros [[I|[]]|I]; [discriminate|auto]. }
  assert (N1 : ~ In "%"%char (lit " ")) by (apply not_mem; reflexivity).
  replace (p ++ lit " %6 %7 %8") with ((p ++ lit " ") ++ mark_of "6" ++ lit " %7 %8") by (rewrite <- !app_assoc; reflexivity).
  rewrite (qarg_mid _ "6" 6); [|reflexivity|discriminate|apply P'; lia|closed_above|reflexivity].
  replace ((p ++ lit " ") ++ decimal (i_status x) ++ lit " %7 %8") with ((p ++ lit " " ++ decimal (i_status x) ++ lit " ") ++ mark_of "7" ++ lit " %8") by (rewrite <- !app_assoc; reflexivity).
  rewrite (qarg_mid _ "7" 7); [|reflexivity|discriminate|apply Q; [lia|rewrite in_app_iff; intuition]|closed_above|reflexivity].
  replace ((p ++ lit " " ++ decimal (i_status x) ++ lit " ") ++ decimal (i_length x) ++ lit " %8")
    with ((p ++ lit " " ++ decimal (i_status x) ++ lit " " ++ decimal (i_length x) ++ lit " ") ++ mark_of "8" ++ []) by (rewrite <- !app_assoc; reflexivity).
  rewrite (qarg_mid _ "8" 8); [|reflexivity|discriminate|apply Q; [lia|rewrite !in_app_iff; intuition]|apply above_nil|exact Logic.I].
  rewrite app_nil_r, <- !app_assoc. reflexivity.
Qed.

Lemma request_above p x : plain_info x -> ~ In "%"%char p -> above 8 (p ++ request_text x).
Proof.
  intros ((H1 & H2 & H3 & H4 & H5) & _) P. unfold request_text. abv. apply above_plain, not_mem. reflexivity.
Qed.

(** ** C75: a line shows the request and the answer, in this layout *)
Theorem C75_line : forall loc m l, plain_info (info_of l) -> ShownLine m l (entry loc m l).
Proof.
  intros loc m l H. assert (M : 0 <= i_ms (info_of l)) by apply H.
  assert (A : Answered (info_of l) (lit " " ++ decimal (i_status (info_of l)) ++ lit " " ++ decimal (i_length (info_of l)) ++ lit " " ++ seconds (i_ms (info_of l)))).
  { constructor; [apply decimal_ok|apply decimal_ok|now apply seconds_ok]. }
  assert (F : forall p, ~ In "%"%char p -> numbers loc (info_of l) (texts (info_of l) (p ++ mid ++ lit " %6 %7 %8")) =
    p ++ request_text (info_of l) ++ (lit " " ++ decimal (i_status (info_of l)) ++ lit " " ++ decimal (i_length (info_of l)) ++ lit " " ++ seconds (i_ms (info_of l)))).
  { intros p P. rewrite texts_ok; auto; [|apply aboveb_ok; reflexivity|cbn; split; [reflexivity|discriminate]].
    rewrite app_assoc. rewrite numbers_ok; auto; [rewrite <- !app_assoc; reflexivity|]. now apply request_above. }
  destruct l as [i x|i x|i x]; cbn [info_of entry] in *.
  - replace fmt_begin with (lit "[BEGIN] " ++ mid ++ lit " - - -") by reflexivity.
    rewrite texts_ok; auto; [constructor|apply not_mem; reflexivity|apply aboveb_ok; reflexivity|cbn; split; [reflexivity|discriminate]].
  - destruct m.
    + replace fmt_completed with ([] ++ mid ++ lit " %6 %7 %8") by reflexivity. rewrite F by auto. cbn [app]. now constructor.
    + replace fmt_end with (lit "[ END ] " ++ mid ++ lit " %6 %7 %8") by reflexivity. rewrite F by (apply not_mem; reflexivity). now constructor.
  - replace fmt_close with (lit "[CLOSE] " ++ mid ++ lit " %6 %7 %8") by reflexivity. rewrite F by (apply not_mem; reflexivity). now constructor.
Qed.

(** ** One line per entry: no text can break a line in two *)
Definition one_line (s : bytes) : Prop := ~ In LF s.
Definition one_line_info (x : info) : Prop :=
  one_line (i_address x) /\ one_line (i_date x) /\ one_line (i_method x) /\ one_line (i_uri x) /\ one_line (i_version x) /\ 0 <= i_ms x.

Lemma digitValue_nonneg c v : digitValue c = Some v -> 0 <= v.
Proof.
  unfold digitValue. destruct (is_digit c) eqn:D; [intros [= <-]; unfold is_digit, in_range in D; apply andb_true_iff in D as (D & _); apply Z.leb_le in D; lia|].
  destruct (Ascii.eqb c "185"); [intros [= <-]; lia|]. destruct (Ascii.eqb c "178"); [intros [= <-]; lia|]. destruct (Ascii.eqb c "179"); [intros [= <-]; lia|]. discriminate.
Qed.
Lemma Marker_nonneg s n : Marker s n -> 0 <= n.
Proof.
  assert (X : forall c v, DigitOf c v -> 0 <= v).
  { intros c v []; try lia. unfold is_digit, in_range in H. apply andb_true_iff in H as (D & _). apply Z.leb_le in D. lia. }
  destruct 1 as [? ? ? ? ? ? D|? ? ? ? ? ? ? ? D E]; [eauto|]. apply X in D, E. lia.
Qed.
Lemma scan_char c s t : In t (scan s) -> In c (match t with Txt d => [d] | Mark _ _ raw => raw end) -> In c s.
Proof.
  intros T I. rewrite <- (replace_id (-1) [] [] (length s) s) by (auto; intros m lo raw J; apply (scan_marker _ _ _ (length s)), Marker_nonneg in J; lia).
  unfold replace. apply in_flat_map. exists t. split; auto. destruct t as [d|m l raw]; auto.
  apply (scan_marker _ _ _ (length s)), Marker_nonneg in T; auto. destruct (Z.eqb_spec m (-1)); [lia|auto].
Qed.
Lemma qarg_in c a la s : In c (qarg a la s) -> In c a \/ In c la \/ In c s.
Proof.
  unfold qarg. destruct (lowest (scan s)) as [n|]; [|auto]. unfold replace. rewrite in_flat_map. intros (t & T & I).
  pose proof (scan_char c s t T) as X. destruct t as [d|m l raw]; [auto|]. destruct (m =? n); [destruct l; auto|]. auto.
Qed.
Lemma until_nul_in c s : In c (until_nul s) -> In c s.
Proof. induction s as [|d s IH]; cbn [until_nul]; [auto|]. destruct (Ascii.eqb d NUL); [intros []|]. intros [->|I]; [now left|right; auto]. Qed.

Lemma texts_line x s : one_line_info x -> one_line s -> one_line (texts x s).
Proof.
  intros (H1 & H2 & H3 & H4 & H5 & M) S J. unfold texts, argS, qstring in J.
  apply qarg_in in J as [J|[J|J]]; [apply H5, until_nul_in, J|apply H5, until_nul_in, J|].
  apply qarg_in in J as [J|[J|J]]; [apply H4, until_nul_in, J|apply H4, until_nul_in, J|].
  apply qarg_in in J as [J|[J|J]]; [apply H3, until_nul_in, J|apply H3, until_nul_in, J|].
  apply qarg_in in J as [J|[J|J]]; [apply H2, J|apply H2, J|].
  apply qarg_in in J as [J|[J|J]]; [apply H1, J|apply H1, J|apply S, J].
Qed.
Lemma numbers_line loc x s : (forall n, one_line (loc n)) -> 0 <= i_ms x -> one_line s -> one_line (numbers loc x s).
Proof.
  intros HL M S J. unfold numbers, argN in J. destruct (seconds_ok (i_ms x) M) as (_ & C).
  destruct (decimal_ok (i_status x)) as (_ & A). destruct (decimal_ok (i_length x)) as (_ & B).
  assert (N : numchar LF = false) by reflexivity.
  apply qarg_in in J as [J|[J|J]]; [exact (numchar_not _ _ C N J)|exact (HL _ J)|].
  apply qarg_in in J as [J|[J|J]]; [exact (numchar_not _ _ B N J)|exact (HL _ J)|].
  apply qarg_in in J as [J|[J|J]]; [exact (numchar_not _ _ A N J)|exact (HL _ J)|exact (S J)].
Qed.
Lemma formats_line : one_line fmt_begin /\ one_line fmt_completed /\ one_line fmt_end /\ one_line fmt_close.
Proof. repeat split; apply not_mem; reflexivity. Qed.
Theorem C75_one_line : forall loc m l, (forall n, one_line (loc n)) -> one_line_info (info_of l) -> one_line (entry loc m l).
Proof.
  intros loc m l HL H. destruct formats_line as (F1 & F2 & F3 & F4). assert (M : 0 <= i_ms (info_of l)) by apply H.
  destruct l as [i x|i x|i x]; unfold info_of, entry in *.
  - exact (texts_line x _ H F1).
  - apply (numbers_line loc x _ HL M), (texts_line x _ H). destruct m; assumption.
  - exact (numbers_line loc x _ HL M (texts_line x _ H F4)).
Qed.

(** ** What each device receives *)
(** the calls and signals of a history, without the calls of setDevice; the device in force *)
Definition handler_events (es : list devent) : list (levent info) := flat_map (fun e => match e with DEvent e => [e] | DDevice _ => [] end) es.
Definition device_after (d : option nat) (es : list devent) : option nat := fold_left (fun d e => match e with DDevice d' => d' | DEvent _ => d end) es d.
(** the lines a history makes (as in C58), each with the device and the mode in force *)
Inductive Journal (m : logmode) (d : option nat) : list devent -> list (option nat * logmode * line info) -> Prop :=
| J_nil : Journal m d [] []
| J_device es J k : Journal m d es J -> Journal m d (es ++ [DDevice k]) J
| J_event es J e ls : Journal m d es J -> NewLines info m (handler_events es) e ls ->
    Journal m d (es ++ [DEvent e]) (J ++ map (fun l => (device_after d es, mode_after info m (handler_events es), l)) ls).
(** all that was written to device k *)
Definition content_of (k : nat) (ws : list (nat * bytes)) : bytes := concat (map snd (filter (fun w => Nat.eqb (fst w) k) ws)).
Definition to_device (k : nat) (j : option nat * logmode * line info) : bool := match fst (fst j) with Some k' => Nat.eqb k' k | None => false end.
Definition to_debug (j : option nat * logmode * line info) : bool := match fst (fst j) with Some _ => false | None => true end.

Section Journal.
  Variable loc : bytes -> bytes.
  Definition text_of (j : option nat * logmode * line info) : bytes := entry loc (snd (fst j)) (snd j).

  Lemma dlog_log m d es : d_log (dlogRun loc m d es) = logRun info m (handler_events es) /\ d_device (dlogRun loc m d es) = device_after d es.
  Proof.
    induction es as [|e es (IH1 & IH2)] using rev_ind; [split; reflexivity|].
    unfold dlogRun, handler_events, device_after. rewrite flat_map_app, !fold_left_app. cbn [fold_left flat_map].
    fold (dlogRun loc m d es) (handler_events es) (device_after d es).
    assert (W : forall f ls s, d_log (fold_left (fun s l => write_entry (f l) s) ls s) = d_log s /\
      d_device (fold_left (fun s (l : line info) => write_entry (f l) s) ls s) = d_device s).
    { intros f ls. induction ls as [|l ls IH]; intros s; [split; reflexivity|]. cbn [fold_left]. destruct (IH (write_entry (f l) s)) as (-> & ->).
      unfold write_entry. destruct (d_device s); split; reflexivity. }
    destruct e as [e|k]; cbn [dlogStep].
    - destruct (W (entry loc (lmode info (logStep info (d_log (dlogRun loc m d es)) e))) (skipn (length (lines info (d_log (dlogRun loc m d es)))) (lines info (logStep info (d_log (dlogRun loc m d es)) e)))
        (mkD (logStep info (d_log (dlogRun loc m d es)) e) (d_device (dlogRun loc m d es)) (d_debug (dlogRun loc m d es)) (d_written (dlogRun loc m d es)))) as (-> & ->).
      cbn [d_log d_device]. rewrite app_nil_r || idtac. split; [|exact IH2]. unfold logRun. rewrite fold_left_app. cbn [fold_left]. fold (logRun info m (handler_events es)). now rewrite IH1.
    - cbn [d_log d_device]. split; [|reflexivity]. rewrite app_nil_r. exact IH1.
  Qed.
  Lemma write_many f dev ls : forall s, d_device s = dev ->
    d_debug (fold_left (fun s (l : line info) => write_entry (f l) s) ls s) = d_debug s ++ match dev with None => map f ls | Some _ => [] end /\
    d_written (fold_left (fun s l => write_entry (f l) s) ls s) =
      d_written s ++ match dev with None => [] | Some k => flat_map (fun l => [(k, utf8 (f l)); (k, [LF])]) ls end.
  Proof.
    induction ls as [|l ls IH]; intros s E; cbn [fold_left map flat_map].
    - destruct dev; rewrite !app_nil_r; auto.
    - destruct (IH (write_entry (f l) s)) as (-> & ->).
      + unfold write_entry. destruct (d_device s) eqn:D; exact E.
      + unfold write_entry. rewrite E. destruct dev; cbn [d_debug d_written]; rewrite <- ?app_assoc, ?app_nil_r; auto.
  Qed.
  Lemma content_app k a b : content_of k (a ++ b) = content_of k a ++ content_of k b.
  Proof. unfold content_of. now rewrite filter_app, map_app, concat_app. Qed.

  Theorem C75_journal : forall m d es, exists J, Journal m d es J /\
    (forall k, content_of k (d_written (dlogRun loc m d es)) = concat (map (fun j => utf8 (text_of j) ++ [LF]) (filter (to_device k) J))) /\
    d_debug (dlogRun loc m d es) = map text_of (filter to_debug J).
  Proof.
    intros m d es. induction es as [|e es (J & HJ & Hw & Hd)] using rev_ind; [exists []; split; [constructor|split; reflexivity]|].
    destruct (dlog_log m d es) as (L1 & L2). destruct e as [e|k].
    2: { exists J. split; [now constructor|]. unfold dlogRun. rewrite fold_left_app. cbn [fold_left dlogStep]. auto. }
    destruct (C58_log_lines info m (handler_events es) e) as (ls & NL & E).
    exists (J ++ map (fun l => (device_after d es, mode_after info m (handler_events es), l)) ls). split; [now constructor|].
    unfold dlogRun. rewrite fold_left_app. cbn [fold_left]. fold (dlogRun loc m d es). cbn [dlogStep].
    rewrite L1. unfold logRun in E. rewrite fold_left_app in E. cbn [fold_left] in E. fold (logRun info m (handler_events es)) in E.
    rewrite E. rewrite skipn_app, skipn_all, Nat.sub_diag. cbn [skipn app].
    assert (Em : ls = [] \/ lmode info (logStep info (logRun info m (handler_events es)) e) = mode_after info m (handler_events es)).
    { pose proof (log_inv info m (handler_events es ++ [e])) as I. unfold logRun in I. rewrite fold_left_app in I. cbn [fold_left] in I. fold (logRun info m (handler_events es)) in I.
      destruct I as [_ _ _ I]. rewrite I. unfold mode_after. rewrite fold_left_app. cbn [fold_left]. destruct NL; auto. }
    set (g := logStep info (logRun info m (handler_events es)) e) in *.
    destruct (write_many (entry loc (lmode info g)) (device_after d es) ls (mkD g (d_device (dlogRun loc m d es)) (d_debug (dlogRun loc m d es)) (d_written (dlogRun loc m d es))) L2) as (W1 & W2).
    rewrite W1, W2. cbn [d_debug d_written]. split.
    - intros k. rewrite content_app, Hw, filter_app, map_app, concat_app. f_equal. clear W1 W2 E NL. destruct Em as [-> | ->].
      + destruct (device_after d es); reflexivity.
      + induction ls as [|l ls IH]; [destruct (device_after d es); reflexivity|]. cbn [map filter flat_map]. unfold to_device at 1. cbn [fst].
        destruct (device_after d es) as [k'|]; [|exact IH]. rewrite content_app, IH. unfold content_of at 1. cbn [filter fst map snd].
        destruct (Nat.eqb k' k); reflexivity.
    - rewrite Hd, filter_app, map_app. f_equal. clear W1 W2 E NL. destruct Em as [-> | ->].
      + destruct (device_after d es); reflexivity.
      + induction ls as [|l ls IH]; [destruct (device_after d es); reflexivity|]. cbn [map filter]. unfold to_debug at 1. cbn [fst].
        destruct (device_after d es) as [k'|]; [exact IH|]. cbn [map]. rewrite <- IH. reflexivity.
  Qed.
End Journal.

(** *** the file is one line for each entry *)
Lemma utf8_ascii s : (forall c, In c s -> byte_val c < 128) -> utf8 s = s.
Proof.
  induction s as [|c s IH]; intros H; [reflexivity|]. unfold utf8. cbn [flat_map]. fold (utf8 s). rewrite IH by (intros; apply H; now right).
  unfold utf8_char. assert (B : byte_val c < 128) by (apply H; now left). apply Z.ltb_lt in B. rewrite B. reflexivity.
Qed.
(** UTF-8 of characters up to U+00FF *)
Inductive Utf8 : bytes -> bytes -> Prop :=
| U_nil : Utf8 [] []
| U_ascii c s b : byte_val c < 128 -> Utf8 s b -> Utf8 (c :: s) (c :: b)
| U_two c s b x y : 128 <= byte_val c -> 194 <= byte_val x <= 195 -> 128 <= byte_val y < 192 ->
    byte_val c = 64 * (byte_val x - 192) + (byte_val y - 128) -> Utf8 s b -> Utf8 (c :: s) (x :: y :: b).
Theorem C75_utf8 : forall s, Utf8 s (utf8 s) /\ (forall b, Utf8 s b -> b = utf8 s).
Proof.
  assert (X : forall s, Utf8 s (utf8 s)).
  { induction s as [|c s IH]; [constructor|]. unfold utf8. cbn [flat_map]. fold (utf8 s).
    assert (T : (if byte_val c <? 128 then true else match utf8_char c with
        [x; y] => (194 <=? byte_val x) && (byte_val x <=? 195) && (128 <=? byte_val y) && (byte_val y <? 192) && (byte_val c =? 64 * (byte_val x - 192) + (byte_val y - 128))
        | _ => false end) = true).
    { apply (forall_bytes (fun c => if byte_val c <? 128 then true else match utf8_char c with
        [x; y] => (194 <=? byte_val x) && (byte_val x <=? 195) && (128 <=? byte_val y) && (byte_val y <? 192) && (byte_val c =? 64 * (byte_val x - 192) + (byte_val y - 128))
        | _ => false end)). vm_compute. reflexivity. }
    unfold utf8_char at 1. unfold utf8_char in T. destruct (Z.ltb_spec (byte_val c) 128); [now constructor|].
    rewrite !andb_true_iff, !Z.leb_le, Z.ltb_lt, Z.eqb_eq in T. apply U_two; try lia; auto. }
  intros s. split; auto. intros b H. pose proof (X s) as H'. revert H'. generalize (utf8 s). induction H as [|c s b L H IH|c s b x y L Hx Hy E H IH]; intros b' H';
    inversion H'; subst; try lia; auto.
  - f_equal. auto.
  - assert (V : forall a a', byte_val a = byte_val a' -> a = a').
    { intros a a' Ev. rewrite <- (ascii_nat_embedding a), <- (ascii_nat_embedding a'). unfold byte_val in Ev. f_equal. lia. }
    assert (byte_val x = byte_val x0 /\ byte_val y = byte_val y0) as (V1 & V2) by lia. apply V in V1, V2. subst. f_equal. f_equal. auto.
Qed.
Lemma utf8_line s : one_line s -> one_line (utf8 s).
Proof.
  intros N I. unfold utf8 in I. apply in_flat_map in I as (c & J & I).
  assert (X : Ascii.eqb c LF || negb (existsb (Ascii.eqb LF) (utf8_char c)) = true).
  { apply (forall_bytes (fun c => Ascii.eqb c LF || negb (existsb (Ascii.eqb LF) (utf8_char c)))). vm_compute. reflexivity. }
  apply orb_true_iff in X as [X|X]; [apply Ascii.eqb_eq in X; subst; contradiction|]. apply negb_true_iff in X.
  assert (existsb (Ascii.eqb LF) (utf8_char c) = true); [|congruence]. apply existsb_exists. exists LF. split; auto.
Qed.
Definition infos (e : devent) : list info :=
  match e with DEvent (VHandle _ _ x) | DEvent (VCompleted _ _ x) | DEvent (VClosed _ _ x) => [x] | _ => [] end.
Lemma journal_infos m d es J j : Journal m d es J -> In j J -> exists e, In e es /\ In (info_of (snd j)) (infos e).
Proof.
  induction 1 as [|es J k H IH|es J e ls H IH NL]; intros I.
  - destruct I.
  - destruct (IH I) as (e & A & B). exists e. rewrite in_app_iff. auto.
  - rewrite in_app_iff in I. destruct I as [I|I].
    + destruct (IH I) as (e' & A & B). exists e'. rewrite in_app_iff. auto.
    + apply in_map_iff in I as (l & <- & I). exists (DEvent e). rewrite in_app_iff. split; [right; now left|]. cbn [snd].
      destruct NL; try (destruct I; fail); try (destruct (mode_after info m (handler_events es))); try (destruct I; fail);
        destruct I as [<-|[]]; now left.
Qed.
Theorem C75_file : forall loc m d es k, (forall n, one_line (loc n)) -> (forall e x, In e es -> In x (infos e) -> one_line_info x) ->
  exists J, Journal m d es J /\
    content_of k (d_written (dlogRun loc m d es)) = concat (map (fun s => s ++ [LF]) (map (fun j => utf8 (text_of loc j)) (filter (to_device k) J))) /\
    Forall one_line (map (fun j => utf8 (text_of loc j)) (filter (to_device k) J)).
Proof.
  intros loc m d es k HL HI. destruct (C75_journal loc m d es) as (J & HJ & Hw & _). exists J. split; auto. split; [rewrite Hw, map_map; reflexivity|].
  apply Forall_map, Forall_forall. intros j I. apply filter_In in I as (I & _). apply utf8_line. unfold text_of. apply C75_one_line; auto.
  destruct (journal_infos _ _ _ _ _ HJ I) as (e & A & B). eapply HI; eauto.
Qed.

(** ** A line can be read back *)
(** the characters that end the texts do not stand inside them *)
Definition separated (x : info) : Prop :=
  ~ In SP (i_address x) /\ ~ In "]"%char (i_date x) /\ ~ In SP (i_method x) /\ ~ In SP (i_uri x) /\ ~ In """"%char (i_version x).

Lemma cut_sep (sep : ascii) a a' u u' : ~ In sep a -> ~ In sep a' -> a ++ sep :: u = a' ++ sep :: u' -> a = a' /\ u = u'.
Proof.
  revert a'. induction a as [|c a IH]; intros [|c' a'] N N' E; cbn [app] in E.
  - injection E as ->. auto.
  - injection E as -> _. destruct N'. now left.
  - injection E as -> _. destruct N. now left.
  - injection E as -> E. destruct (IH a') as (-> & ->); auto; intros I; [apply N|apply N']; now right.
Qed.
Lemma request_inj x y t t' : separated x -> separated y -> request_text x ++ t = request_text y ++ t' ->
  i_address x = i_address y /\ i_date x = i_date y /\ i_method x = i_method y /\ i_uri x = i_uri y /\ i_version x = i_version y /\ t = t'.
Proof.
  intros (A1 & A2 & A3 & A4 & A5) (B1 & B2 & B3 & B4 & B5). unfold request_text. rewrite <- !app_assoc.
  intros E. apply (cut_sep SP) in E as (E1 & E); auto. injection E as E. apply (cut_sep "]"%char) in E as (E2 & E); auto. injection E as E.
  apply (cut_sep SP) in E as (E3 & E); auto. apply (cut_sep SP) in E as (E4 & E); auto. apply (cut_sep """"%char) in E as (E5 & E); auto 10.
Qed.
Lemma canonical_nosp n a : Canonical 10 a n -> ~ In SP a.
Proof.
  intros (ds & _ & -> & L & _) I. assert (J : In SP ds) by (destruct (n <? 0); [destruct I as [I|I]; [discriminate|auto]|auto]).
  rewrite forallb_forall in L. apply L in J. discriminate.
Qed.
Lemma seconds_inj s n m : Seconds s n -> Seconds s m -> n = m.
Proof.
  intros (a & b & A & B & Lb & ->) (a' & b' & A' & B' & Lb' & E).
  assert (Dot : forall k a, Canonical 10 a k -> ~ In "."%char a).
  { intros k c (ds & _ & -> & L & _) I. assert (J : In "."%char ds) by (destruct (k <? 0); [destruct I as [I|I]; [discriminate|auto]|auto]).
    rewrite forallb_forall in L. apply L in J. discriminate. }
  apply (cut_sep "."%char) in E as (-> & ->); eauto. pose proof (Canonical_inj 10 _ _ _ ltac:(lia) A A'). pose proof (Digits_fun _ _ _ _ B B').
  rewrite (Z.div_mod n 1000), (Z.div_mod m 1000) by lia. congruence.
Qed.
Theorem C75_readable : forall m i j x y s, ShownLine m (LEnd _ i x) s -> ShownLine m (LEnd _ j y) s -> separated x -> separated y -> x = y.
Proof.
  assert (K : forall x y t t', Answered x t -> Answered y t' -> separated x -> separated y -> request_text x ++ t = request_text y ++ t' -> x = y).
  { intros x y t t' [a b c A B C] [a' b' c' A' B' C'] Sx Sy E. apply request_inj in E as (E1 & E2 & E3 & E4 & E5 & E); auto.
    injection E as E. apply (cut_sep SP) in E as (-> & E); [|eauto using canonical_nosp|eauto using canonical_nosp].
    apply (cut_sep SP) in E as (-> & ->); [|eauto using canonical_nosp|eauto using canonical_nosp].
    apply (Canonical_inj 10 _ _ _ ltac:(lia) A) in A'. apply (Canonical_inj 10 _ _ _ ltac:(lia) B) in B'. apply (seconds_inj _ _ _ C) in C'.
    destruct x, y; cbn in *; congruence. }
  intros m i j x y s H H' Sx Sy. inversion H as [|? ? t A|? ? t A|]; subst; inversion H' as [|? ? t' A'|? ? t' A'|]; subst.
  - eapply K; eauto.
  - eapply (K x y); eauto.
Qed.

(** ** Requests read from a connection *)
Lemma text_all (ok : ascii -> bool) (P : ascii -> Prop) s : Text ok s -> (forall c, ok c = true -> P c) -> (forall c, is_xdigit c = true -> P c) ->
  P "%"%char -> P "u"%char -> forall c, In c s -> P c.
Proof.
  intros T A B C D. induction T as [|c t H T IH|a b t H1 H2 T IH|a b t H1 H2 T IH]; intros x I; cbn [In] in I.
  - destruct I.
  - destruct I as [<-|I]; auto.
  - destruct I as [<-|[<-|[<-|I]]]; auto.
  - destruct I as [<-|[<-|[<-|[<-|I]]]]; auto.
Qed.
Definition visible (c : ascii) : bool := negb (is_ctl c) && negb (Ascii.eqb c SP).
Lemma byte_implies (P Q : ascii -> bool) c : forallb (fun c => implb (P c) (Q c)) all_bytes = true -> P c = true -> Q c = true.
Proof. intros H A. apply (forall_bytes _) with (c := c) in H. rewrite A in H. exact H. Qed.
Lemma vis_text ok s : Text ok s -> (forall c, ok c = true -> visible c = true) -> forallb visible s = true.
Proof.
  intros T H. apply forallb_forall. apply (text_all ok _ s T H); auto. intros c. apply byte_implies. reflexivity.
Qed.
Lemma vis_sub (P : ascii -> bool) s : forallb (fun c => implb (P c) (visible c)) all_bytes = true -> forallb P s = true -> forallb visible s = true.
Proof. rewrite !forallb_forall. intros H A c I. apply (byte_implies P visible). { now apply forallb_forall. } auto. Qed.
Lemma vis_uri c : uri_char c = true -> visible c = true.
Proof. apply byte_implies. reflexivity. Qed.
Lemma vis_path c : path_char c = true -> visible c = true.
Proof. apply byte_implies. reflexivity. Qed.
Lemma vis_target t : wf_target t -> forallb visible (target_text t) = true.
Proof.
  destruct 1 as [|s r S R|p P|p q P Q]; cbn [target_text]; [reflexivity| | |]; rewrite ?forallb_app.
  - rewrite (vis_sub scheme_char s), (vis_text uri_char r) by (auto using vis_uri). reflexivity.
  - rewrite (vis_text path_char p) by (auto using vis_path). reflexivity.
  - rewrite (vis_text path_char p), (vis_text uri_char q) by (auto using vis_path, vis_uri). reflexivity.
Qed.
Lemma vis_no c s : forallb visible s = true -> visible c = false -> ~ In c s.
Proof. intros H N I. rewrite forallb_forall in H. apply H in I. congruence. Qed.
Lemma shown_in c t : In c (shown_uri t) -> In c (target_text t) \/ c = NUL.
Proof.
  destruct t as [|s r|p [[|d q]|]]; cbn [shown_uri]; auto. rewrite !in_app_iff. cbn [target_text In]. rewrite !in_app_iff. intuition.
Qed.
Lemma vis_version h : wf_head h -> forallb visible (version_text h) = true /\ ~ In "%"%char (version_text h) /\ ~ In """"%char (version_text h).
Proof.
  intros W. destruct (wf_major h W) as (_ & A). destruct (wf_minor h W) as (_ & B). unfold version_text.
  assert (V : forall c, In c (lit "HTTP/" ++ hd_major h ++ lit "." ++ hd_minor h) -> is_digit c || mem c (lit "HTP/.") = true).
  { rewrite forallb_forall in A, B. intros c. rewrite !in_app_iff. intros [I|[I|[I|I]]]; [|now rewrite A| |now rewrite B].
    - repeat (destruct I as [<-|I]; [reflexivity|]). destruct I.
    - destruct I as [<-|[]]. reflexivity. }
  split; [|split; intros I; apply V in I; discriminate].
  apply (vis_sub (fun c => is_digit c || mem c (lit "HTP/."))); [reflexivity|]. apply forallb_forall, V.
Qed.
Lemma vis_method h : wf_head h -> forallb visible (hd_method h) = true /\ ~ In "%"%char (hd_method h).
Proof.
  intros W. pose proof (wf_method h W) as A. split; [apply (vis_sub method_char); auto|]. intros I. rewrite forallb_forall in A. apply A in I. discriminate.
Qed.
Lemma Marker_percent s n : Marker s n -> In "%"%char s.
Proof. destruct 1; rewrite !in_app_iff; right; left; now left. Qed.

(** the line is about request r of the connection *)
Definition about (r : request) (x : info) : Prop := i_method x = q_method r /\ i_uri x = q_uri r /\ i_version x = q_version r.

Lemma ready_head c stk r : reached c stk -> In (OReady r) (log c) -> exists h, wf_head h /\
  q_method r = hd_method h /\ q_uri r = shown_uri (hd_target h) /\ q_version r = version_text h.
Proof.
  intros H I. destruct (C01_requests_from_stream _ _ H) as (ms & rest & W & A & N).
  rewrite In_ready, N in I. apply in_map_iff in I as (m & <- & I). rewrite Forall_forall in W. exists (m_head m).
  split; [apply W, I|]. repeat split.
Qed.
(** whatever a client sends, its request makes one line *)
Theorem C75_no_forging : forall loc m l c stk r, (forall n, one_line (loc n)) -> reached c stk -> In (OReady r) (log c) -> about r (info_of l) ->
  one_line (i_address (info_of l)) -> one_line (i_date (info_of l)) -> 0 <= i_ms (info_of l) -> one_line (entry loc m l).
Proof.
  intros loc m l c stk r HL H I (A1 & A2 & A3) L1 L2 M. destruct (ready_head _ _ _ H I) as (h & W & E1 & E2 & E3).
  apply C75_one_line; auto. unfold one_line_info. rewrite A1, A2, A3, E1, E2, E3.
  destruct (vis_method h W) as (V1 & _). destruct (vis_version h W) as (V3 & _). pose proof (vis_target _ (wf_tgt h W)) as V2.
  split; auto. split; auto. split; [now apply vis_no|]. split; [|split; [now apply vis_no|auto]].
  intros J. apply shown_in in J as [J|J]; [|discriminate]. revert J. now apply vis_no.
Qed.
(** the line of a request whose target has a query that is not empty and no escape that looks like a place marker *)
Theorem C75_request : forall loc m l c stk r, reached c stk -> In (OReady r) (log c) -> about r (info_of l) -> 0 <= i_ms (info_of l) ->
  harmless (i_address (info_of l)) -> harmless (i_date (info_of l)) ->
  exists h content pre post, wf_head h /\ arrived c = pre ++ head_text h ++ content ++ post /\
    ((forall p, hd_target h <> Origin p (Some [])) -> harmless (target_text (hd_target h)) ->
     ShownLine m l (entry loc m l) /\
     i_method (info_of l) = hd_method h /\ i_uri (info_of l) = target_text (hd_target h) /\ i_version (info_of l) = version_text h /\
     (~ In SP (i_address (info_of l)) -> ~ In "]"%char (i_date (info_of l)) -> separated (info_of l))).
Proof.
  intros loc m l c stk r H I (A1 & A2 & A3) M H1 H2. destruct (C01_requests_from_stream _ _ H) as (ms & rest & W & A & N).
  rewrite In_ready, N in I. apply in_map_iff in I as (mg & <- & I). apply in_split in I as (m1 & m2 & ->).
  apply Forall_elt in W. exists (m_head mg), (m_content mg), (concat (map wire m1)), (concat (map wire m2) ++ rest).
  assert (Wh : wf_head (m_head mg)) by apply W. split; [exact Wh|].
  split; [rewrite A, map_app, concat_app; cbn [map concat]; unfold wire at 2; rewrite <- !app_assoc; reflexivity|]. intros NE Ht.
  destruct (vis_method _ Wh) as (V1 & P1). destruct (vis_version _ Wh) as (V3 & P3 & Q3). pose proof (vis_target _ (wf_tgt _ Wh)) as V2.
  cbn [delivered q_method q_uri q_version] in A1, A2, A3.
  assert (E2 : shown_uri (hd_target (m_head mg)) = target_text (hd_target (m_head mg))).
  { unfold shown_uri. destruct (hd_target (m_head mg)) as [| |p [[|]|]]; auto. now destruct (NE p). }
  rewrite E2 in A2. split; [|split; [exact A1|split; [exact A2|split; [exact A3|]]]].
  - apply C75_line. unfold plain_info. rewrite A1, A2, A3. split; [|split; [|exact M]].
    + repeat split; auto; intros n K; apply Marker_percent in K; contradiction.
    + split; [now apply vis_no|split; now apply vis_no].
  - intros S1 S2. unfold separated. rewrite A1, A2, A3. split; auto. split; auto. split; [now apply vis_no|split; [now apply vis_no|auto]].
Qed.

(** ** Cases *)
Definition id_loc (b : bytes) : bytes := b.
Definition sample_info (uri : bytes) : info :=
  mkInfo (lit "10.0.0.7") (lit "18/Nov/2026 11:02:03") (lit "GET") uri (lit "HTTP/1.1") 200 5 3.
Lemma markersb_ok s : aboveb 8 s = true -> (forall n, Marker s n -> exists lo raw, In (Mark n lo raw) (scan s)) -> harmless s.
Proof. intros H K n M. destruct (K n M) as (lo & raw & I). eapply aboveb_ok; eauto. Qed.
Lemma digit_complete c v : DigitOf c v -> digitValue c = Some v.
Proof. destruct 1 as [c H| | |]; try reflexivity. unfold digitValue. now rewrite H. Qed.
Lemma digit_not_L c v : DigitOf c v -> c <> "L"%char /\ c <> "%"%char.
Proof. intros D. apply digit_complete in D. split; intros ->; discriminate. Qed.
(** and conversely: every marker is found *)
Lemma marker_scan s n : Marker s n -> exists lo raw, In (Mark n lo raw) (scan s).
Proof.
  assert (SF : forall t, safe (lit "%" ++ t)) by (intros t; split; [reflexivity|discriminate]).
  destruct 1 as [pre l d post n L D N|pre l d e post v w L D E].
  - rewrite (scan_app (length pre)) by auto. destruct (digit_not_L _ _ D) as (D1 & _). apply digit_complete in D.
    assert (P : match post with [] => True | e :: _ => digitValue e = None end).
    { destruct post as [|e t]; auto. destruct (digitValue e) as [w|] eqn:Ew; auto. destruct (N e t w eq_refl). now apply digitValue_ok. }
    destruct L as [-> | ->]; cbn [app lit list_ascii_of_string scan]; change (Ascii.eqb "%" "%") with true; cbn [negb].
    + destruct (Ascii.eqb_spec d "L"); [contradiction|]. rewrite D. exists false, ["%"%char; d]. rewrite in_app_iff. right.
      destruct post; [now left|]. rewrite P. now left.
    + change (Ascii.eqb "L" "L") with true. cbv iota. rewrite D. exists true, ["%"%char; "L"%char; d]. rewrite in_app_iff. right.
      destruct post; [now left|]. rewrite P. now left.
  - rewrite (scan_app (length pre)) by auto. destruct (digit_not_L _ _ D) as (D1 & _). apply digit_complete in D, E.
    destruct L as [-> | ->]; cbn [app lit list_ascii_of_string scan]; change (Ascii.eqb "%" "%") with true; cbn [negb].
    + destruct (Ascii.eqb_spec d "L"); [contradiction|]. rewrite D, E. exists false, ["%"%char; d; e]. rewrite in_app_iff. right. now left.
    + change (Ascii.eqb "L" "L") with true. cbv iota. rewrite D, E. exists true, ["%"%char; "L"%char; d; e]. rewrite in_app_iff. right. now left.
Qed.
Lemma harmlessb_ok s : aboveb 8 s = true -> harmless s.
Proof. intros H. apply markersb_ok; auto using marker_scan. Qed.

Example C75_case : plain_info (sample_info (lit "/caf%C3%A9%20x?q=50%")) /\ separated (sample_info (lit "/caf%C3%A9%20x?q=50%")) /\
  entry id_loc LogCompleted (LEnd _ 7%nat (sample_info (lit "/caf%C3%A9%20x?q=50%"))) =
    lit "10.0.0.7 - - [18/Nov/2026 11:02:03] ""GET /caf%C3%A9%20x?q=50% HTTP/1.1"" 200 5 0.003".
Proof.
  split; [|split].
  - split; [repeat split; apply harmlessb_ok; vm_compute; reflexivity|]. split; [repeat split; apply not_mem; reflexivity|]. cbn. lia.
  - repeat split; apply not_mem; reflexivity.
  - vm_compute. reflexivity.
Qed.
Definition device_run : list devent :=
  [DEvent (VHandle _ 1%nat (sample_info (lit "/a"))); DEvent (VCompleted _ 1%nat (sample_info (lit "/a"))); DDevice (Some 4%nat);
   DEvent (VMode _ Trace); DEvent (VHandle _ 1%nat (sample_info (lit "/b"))); DEvent (VClosed _ 1%nat (sample_info (lit "/b")))].
Example C75_devices_case :
  content_of 3 (d_written (dlogRun id_loc LogCompleted (Some 3%nat) device_run)) =
    lit "10.0.0.7 - - [18/Nov/2026 11:02:03] ""GET /a HTTP/1.1"" 200 5 0.003" ++ [LF] /\
  content_of 4 (d_written (dlogRun id_loc LogCompleted (Some 3%nat) device_run)) =
    lit "[BEGIN] 10.0.0.7 - - [18/Nov/2026 11:02:03] ""GET /b HTTP/1.1"" - - -" ++ [LF] ++
    lit "[CLOSE] 10.0.0.7 - - [18/Nov/2026 11:02:03] ""GET /b HTTP/1.1"" 200 5 0.003" ++ [LF].
Proof. vm_compute. auto. Qed.

(** ** Where it fails *)
Definition one_request (t : bytes) : list action := [ACall (OpInit (NewDevice true true true t)); ACall OpProcess].
(** An escape of a digit and a letter in the target, such as %2F (a slash), is taken for a place marker: the version is written
    into the target and every later column moves. *)
Theorem C75_escape_refuted : exists c stk r, reached c stk /\ log c = [OReady r] /\ arrived c = lit "GET /a%2Fb HTTP/1.1" ++ CRLF ++ CRLF /\
  about r (sample_info (lit "/a%2Fb")) /\
  forall loc i, entry loc LogCompleted (LEnd _ i (sample_info (lit "/a%2Fb"))) =
    lit "10.0.0.7 - - [18/Nov/2026 11:02:03] ""GET /aHTTP/1.1Fb 200"" 5 0.003 %8".
Proof.
  set (l := one_request (lit "GET /a%2Fb HTTP/1.1" ++ CRLF ++ CRLF)). exists (run_conn l), [KSig SReady], (nth 0 (announced (log (run_conn l))) req0).
  split; [apply reached_run; vm_compute; reflexivity|]. split; [vm_compute; reflexivity|]. split; [vm_compute; reflexivity|].
  split; [vm_compute; auto|]. intros loc i. vm_compute. reflexivity.
Qed.
(** A target with an empty query is shown without its '?' (requestUri() has a NUL there, C04_uri_refuted). *)
Theorem C75_empty_query_refuted : exists c stk r, reached c stk /\ log c = [OReady r] /\ arrived c = lit "GET /a? HTTP/1.1" ++ CRLF ++ CRLF /\
  about r (sample_info (lit "/a" ++ [NUL])) /\
  forall loc i, entry loc LogCompleted (LEnd _ i (sample_info (lit "/a" ++ [NUL]))) =
    lit "10.0.0.7 - - [18/Nov/2026 11:02:03] ""GET /a HTTP/1.1"" 200 5 0.003".
Proof.
  set (l := one_request (lit "GET /a? HTTP/1.1" ++ CRLF ++ CRLF)). exists (run_conn l), [KSig SReady], (nth 0 (announced (log (run_conn l))) req0).
  split; [apply reached_run; vm_compute; reflexivity|]. split; [vm_compute; reflexivity|]. split; [vm_compute; reflexivity|].
  split; [vm_compute; auto|]. intros loc i. vm_compute. reflexivity.
Qed.
