(** The request head parser as a whole: acceptance = grammar, viable prefixes, incremental execution. *)
From Verif Require Import Bytes ByteHelpers Thin ReqGrammar ThinClasses ThinProofs ThinFields.
Open Scope Z_scope.

(** ** Facts read off the table by a sweep over all states and bytes *)

Definition all_states : list Z := map Z.of_nat (seq 0 59).
Lemma all_states_in s : 0 <= s <= 58 -> In s all_states.
Proof.
  intros H. unfold all_states. apply in_map_iff. exists (Z.to_nat s). split; [lia|]. apply in_seq. lia.
Qed.
Lemma forall_table (P : Z -> ascii -> bool) :
  forallb (fun s => forallb (P s) all_bytes) all_states = true ->
  forall s c, 0 <= s <= 58 -> P s c = true.
Proof.
  intros H s c Hs. rewrite forallb_forall in H. apply forall_bytes. apply H, all_states_in, Hs.
Qed.

Definition is1819 s := (s =? 18) || (s =? 19).
Definition table_ok (s : Z) (c : ascii) : bool :=
  match tra s c with
  | TErr => true
  | TDone => s =? 16
  | TGo acts n =>
      (1 <=? n) && (n <=? 57) && (1 <=? s) && (s <=? 57) &&
      (if existsb (act_eqb A_write_value) acts
       then is1819 s && (n =? 14) && (acts_eqb acts [A_write_value] || acts_eqb acts [A_mark; A_write_value])
       else true) &&
      (if n =? 17 then ((s =? 17) && acts_eqb acts []) || acts_eqb acts [A_start_field] else true) &&
      (if is1819 n then ((s =? 17) && acts_eqb acts [A_write_field])
                        || (is1819 s && (acts_eqb acts [] || acts_eqb acts [A_mark])) else true)
  end.
Lemma table_facts : forall s c, 0 <= s <= 58 -> table_ok s c = true.
Proof. apply forall_table. vm_compute. reflexivity. Qed.

Lemma tra_next s c acts n : 0 <= s <= 58 -> tra s c = TGo acts n -> 1 <= n <= 57 /\ 1 <= s <= 57.
Proof.
  intros Hs E. pose proof (table_facts s c Hs) as H. unfold table_ok in H. rewrite E in H.
  rewrite !andb_true_iff, !Z.leb_le in H. lia.
Qed.

(** each working state can still reach the end (witnesses found by search, checked here) *)
Definition witnesses : list (list nat) :=
  [[]
  ; [36; 32; 42; 32; 72; 84; 84; 80; 47; 48; 46; 48; 13; 10; 13; 10]
  ; [32; 42; 32; 72; 84; 84; 80; 47; 48; 46; 48; 13; 10; 13; 10]
  ; [42; 32; 72; 84; 84; 80; 47; 48; 46; 48; 13; 10; 13; 10]
  ; [32; 72; 84; 84; 80; 47; 48; 46; 48; 13; 10; 13; 10]
  ; [72; 84; 84; 80; 47; 48; 46; 48; 13; 10; 13; 10]
  ; [84; 84; 80; 47; 48; 46; 48; 13; 10; 13; 10]
  ; [84; 80; 47; 48; 46; 48; 13; 10; 13; 10]
  ; [80; 47; 48; 46; 48; 13; 10; 13; 10]
  ; [47; 48; 46; 48; 13; 10; 13; 10]
  ; [48; 46; 48; 13; 10; 13; 10]
  ; [46; 48; 13; 10; 13; 10]
  ; [48; 13; 10; 13; 10]
  ; [13; 10; 13; 10]
  ; [10; 13; 10]
  ; [13; 10]
  ; [10]
  ; [58; 13; 10; 13; 10]
  ; [13; 10; 13; 10]
  ; [13; 10; 13; 10]
  ; [32; 72; 84; 84; 80; 47; 48; 46; 48; 13; 10; 13; 10]
  ; [32; 72; 84; 84; 80; 47; 48; 46; 48; 13; 10; 13; 10]
  ; [48; 48; 32; 72; 84; 84; 80; 47; 48; 46; 48; 13; 10; 13; 10]
  ; [48; 32; 72; 84; 84; 80; 47; 48; 46; 48; 13; 10; 13; 10]
  ; [48; 48; 32; 72; 84; 84; 80; 47; 48; 46; 48; 13; 10; 13; 10]
  ; [58; 32; 72; 84; 84; 80; 47; 48; 46; 48; 13; 10; 13; 10]
  ; [32; 72; 84; 84; 80; 47; 48; 46; 48; 13; 10; 13; 10]
  ; [48; 48; 32; 72; 84; 84; 80; 47; 48; 46; 48; 13; 10; 13; 10]
  ; [48; 32; 72; 84; 84; 80; 47; 48; 46; 48; 13; 10; 13; 10]
  ; [48; 48; 32; 72; 84; 84; 80; 47; 48; 46; 48; 13; 10; 13; 10]
  ; [32; 72; 84; 84; 80; 47; 48; 46; 48; 13; 10; 13; 10]
  ; [48; 48; 32; 72; 84; 84; 80; 47; 48; 46; 48; 13; 10; 13; 10]
  ; [48; 32; 72; 84; 84; 80; 47; 48; 46; 48; 13; 10; 13; 10]
  ; [48; 48; 32; 72; 84; 84; 80; 47; 48; 46; 48; 13; 10; 13; 10]
  ; [32; 72; 84; 84; 80; 47; 48; 46; 48; 13; 10; 13; 10]
  ; [32; 72; 84; 84; 80; 47; 48; 46; 48; 13; 10; 13; 10]
  ; [48; 48; 32; 72; 84; 84; 80; 47; 48; 46; 48; 13; 10; 13; 10]
  ; [48; 32; 72; 84; 84; 80; 47; 48; 46; 48; 13; 10; 13; 10]
  ; [48; 48; 32; 72; 84; 84; 80; 47; 48; 46; 48; 13; 10; 13; 10]
  ; [32; 42; 32; 72; 84; 84; 80; 47; 48; 46; 48; 13; 10; 13; 10]
  ; [32; 42; 32; 72; 84; 84; 80; 47; 48; 46; 48; 13; 10; 13; 10]
  ; [32; 42; 32; 72; 84; 84; 80; 47; 48; 46; 48; 13; 10; 13; 10]
  ; [32; 42; 32; 72; 84; 84; 80; 47; 48; 46; 48; 13; 10; 13; 10]
  ; [32; 42; 32; 72; 84; 84; 80; 47; 48; 46; 48; 13; 10; 13; 10]
  ; [32; 42; 32; 72; 84; 84; 80; 47; 48; 46; 48; 13; 10; 13; 10]
  ; [32; 42; 32; 72; 84; 84; 80; 47; 48; 46; 48; 13; 10; 13; 10]
  ; [32; 42; 32; 72; 84; 84; 80; 47; 48; 46; 48; 13; 10; 13; 10]
  ; [32; 42; 32; 72; 84; 84; 80; 47; 48; 46; 48; 13; 10; 13; 10]
  ; [32; 42; 32; 72; 84; 84; 80; 47; 48; 46; 48; 13; 10; 13; 10]
  ; [32; 42; 32; 72; 84; 84; 80; 47; 48; 46; 48; 13; 10; 13; 10]
  ; [32; 42; 32; 72; 84; 84; 80; 47; 48; 46; 48; 13; 10; 13; 10]
  ; [32; 42; 32; 72; 84; 84; 80; 47; 48; 46; 48; 13; 10; 13; 10]
  ; [32; 42; 32; 72; 84; 84; 80; 47; 48; 46; 48; 13; 10; 13; 10]
  ; [32; 42; 32; 72; 84; 84; 80; 47; 48; 46; 48; 13; 10; 13; 10]
  ; [32; 42; 32; 72; 84; 84; 80; 47; 48; 46; 48; 13; 10; 13; 10]
  ; [32; 42; 32; 72; 84; 84; 80; 47; 48; 46; 48; 13; 10; 13; 10]
  ; [32; 42; 32; 72; 84; 84; 80; 47; 48; 46; 48; 13; 10; 13; 10]
  ; [32; 42; 32; 72; 84; 84; 80; 47; 48; 46; 48; 13; 10; 13; 10]
  ]%nat.

Definition witness (s : Z) : bytes := map ascii_of_nat (nth (Z.to_nat s) witnesses []).
Lemma live : forall s, 1 <= s <= 57 -> drun s (witness s) = DDone [].
Proof.
  assert (H : forallb (fun s => match drun s (witness s) with DDone [] => true | _ => false end)
                (map Z.of_nat (seq 1 57)) = true) by (vm_compute; reflexivity).
  rewrite forallb_forall in H. intros s Hs.
  specialize (H s). cbv beta in H.
  assert (I : In s (map Z.of_nat (seq 1 57))).
  { apply in_map_iff. exists (Z.to_nat s). split; [lia|]. apply in_seq. lia. }
  specialize (H I). destruct (drun s (witness s)) as [| |[|? ?]]; try discriminate. reflexivity.
Qed.

Lemma drun_more s l n : 1 <= s <= 57 -> drun s l = DMore n -> 1 <= n <= 57.
Proof.
  revert s; induction l as [|c l IH]; intros s Hs; cbn [drun].
  - intros [= <-]; auto.
  - destruct (tra s c) as [|acts m|] eqn:E; try discriminate. intros H.
    apply tra_next in E; [|lia]. apply (IH m); tauto.
Qed.

(** ** The automaton and the full parser agree *)

Lemma do_acts_cs buf pos acts s : cs (tp (do_acts buf pos acts s)) = cs (tp s) /\
  body_start (tp (do_acts buf pos acts s)) = body_start (tp s) /\
  nread (tp (do_acts buf pos acts s)) = nread (tp s).
Proof.
  revert s; induction acts as [|a acts IH]; intros s; [auto|]. unfold do_acts in *; cbn [fold_left].
  destruct (IH (do_act buf pos a s)) as (-> & -> & ->). destruct a; auto.
Qed.

Lemma trun_drun buf : forall l pos s,
  let '(s', p) := trun buf pos l s in
  nread (tp s') = nread (tp s) /\
  match drun (cs (tp s)) l with
  | DErr => cs (tp s') = 0 /\ pos <= p < pos + blen l /\ body_start (tp s') = body_start (tp s)
  | DMore n => cs (tp s') = n /\ p = pos + blen l /\ body_start (tp s') = body_start (tp s)
  | DDone r => cs (tp s') = 58 /\ p = pos + blen l - blen r /\ pos < p /\ body_start (tp s') = p
  end.
Proof.
  induction l as [|c l IH]; intros pos s.
  - cbn. repeat split; lia.
  - rewrite trun_cons. cbn [drun]. destruct (tra (cs (tp s)) c) as [|acts n|].
    + split; [reflexivity|]. rewrite blen_cons. pose proof (blen_nonneg l). repeat split; cbn [tp goto with_tp set_cs cs body_start]; lia.
    + specialize (IH (pos + 1) (goto n (do_acts buf pos acts s))).
      destruct (trun buf (pos + 1) l (goto n (do_acts buf pos acts s))) as [s' p].
      destruct (do_acts_cs buf pos acts s) as (Ec & Eb & En).
      destruct IH as [IHn IH]. cbn [goto with_tp tp set_cs nread cs body_start] in *. split; [congruence|].
      rewrite blen_cons. destruct (drun n l).
      * destruct IH as (I1 & I2 & I3). repeat split; try congruence; lia.
      * destruct IH as (I1 & I2 & I3). repeat split; try congruence; lia.
      * destruct IH as (I1 & I2 & I3 & I4). repeat split; try congruence; lia.
    + split; [reflexivity|]. rewrite blen_cons. repeat split; cbn [tp goto with_tp set_cs set_body_start cs body_start]; lia.
Qed.

Lemma trun_app buf : forall a b pos s,
  match drun (cs (tp s)) a with
  | DMore _ => trun buf pos (a ++ b) s = trun buf (pos + blen a) b (fst (trun buf pos a s))
  | _ => trun buf pos (a ++ b) s = trun buf pos a s
  end.
Proof.
  induction a as [|c a IH]; intros b pos s.
  - cbn. now rewrite Z.add_0_r.
  - cbn [app drun]. rewrite !trun_cons. destruct (tra (cs (tp s)) c) as [|acts n|]; auto.
    specialize (IH b (pos + 1) (goto n (do_acts buf pos acts s))).
    destruct (do_acts_cs buf pos acts s) as (Ec & Eb & En).
    cbn [goto with_tp tp set_cs cs] in IH. destruct (drun n a); auto.
    rewrite IH, blen_cons. f_equal. lia.
Qed.

(** ** Extending the buffer does not change what was parsed *)

Definition finv (pos : Z) (s : tstate) : Prop :=
  0 <= pos /\ 0 <= cs (tp s) <= 58 /\
  (cs (tp s) = 17 -> 0 <= field_start (tp s) <= pos) /\
  (is1819 (cs (tp s)) = true -> 0 <= field_start (tp s) /\ 0 <= field_len (tp s) /\
                            field_start (tp s) + field_len (tp s) <= pos).

Lemma acts_eqb_eq a b : acts_eqb a b = true -> a = b.
Proof.
  intros H. assert (E : TGo a 0 = TGo b 0) by (apply tr_eqb_eq; cbn; rewrite H; reflexivity).
  now injection E.
Qed.

Lemma do_acts_ext buf x pos acts s :
  existsb (act_eqb A_write_value) acts = false ->
  do_acts (buf ++ x) pos acts s = do_acts buf pos acts s.
Proof.
  revert s; induction acts as [|a acts IH]; intros s; [reflexivity|]. cbn. intros H.
  apply orb_false_iff in H. destruct H as [H1 H2]. unfold do_acts in *; cbn [fold_left].
  rewrite IH by auto. f_equal. destruct a; try reflexivity. discriminate.
Qed.

Lemma cb_ext buf x fpos flen vpos vlen s : 0 <= fpos -> fpos + flen <= blen buf ->
  http_field_cb (buf ++ x) fpos flen vpos vlen s = http_field_cb buf fpos flen vpos vlen s.
Proof.
  intros H1 H2. unfold http_field_cb. destruct (Z.eqb_spec flen 14) as [->|]; [|reflexivity].
  now rewrite slice_app_l by lia.
Qed.

Lemma finv_step buf pos c s acts n : finv pos s -> tra (cs (tp s)) c = TGo acts n -> pos < blen buf ->
  finv (pos + 1) (goto n (do_acts buf pos acts s)) /\
  forall x, do_acts (buf ++ x) pos acts s = do_acts buf pos acts s.
Proof.
  intros (Hp & Hc & H17 & H18) E Hb.
  pose proof (table_facts (cs (tp s)) c Hc) as T. unfold table_ok in T. rewrite E in T.
  rewrite !andb_true_iff in T. destruct T as ((((((N1 & N2) & S1) & S2) & TW) & T17) & T18).
  apply Z.leb_le in N1, N2, S1, S2.
  destruct (existsb (act_eqb A_write_value) acts) eqn:EW.
  - rewrite !andb_true_iff in TW. destruct TW as ((W1 & W2) & W3).
    apply Z.eqb_eq in W2. subst n. specialize (H18 W1).
    apply orb_true_iff in W3. split.
    + split; [lia|]. split; [cbn; lia|]. split; cbn; intros; discriminate.
    + intros x. destruct W3 as [W3|W3]; apply acts_eqb_eq in W3; subst acts;
      cbn [do_acts fold_left do_act tp field_start field_len mark]; apply cb_ext; lia.
  - split; [|intros x; apply do_acts_ext; auto].
    split; [lia|]. split; [cbn; lia|]. split.
    + cbn [goto with_tp tp set_cs cs]. intros ->. cbn in T17.
      apply orb_true_iff in T17. destruct T17 as [T17|T17].
      * apply andb_true_iff in T17. destruct T17 as [A B]. apply Z.eqb_eq in A. apply acts_eqb_eq in B. subst acts.
        cbn. lia.
      * apply acts_eqb_eq in T17. subst acts. cbn. lia.
    + cbn [goto with_tp tp set_cs cs]. intros Hn. rewrite Hn in T18.
      apply orb_true_iff in T18. destruct T18 as [T18|T18]; apply andb_true_iff in T18; destruct T18 as [A B].
      * apply Z.eqb_eq in A. apply acts_eqb_eq in B. subst acts. cbn. lia.
      * specialize (H18 A). apply orb_true_iff in B. destruct B as [B|B]; apply acts_eqb_eq in B; subst acts; cbn; lia.
Qed.

Lemma trun_ext buf x : forall l pos s, finv pos s -> pos + blen l <= blen buf ->
  trun (buf ++ x) pos l s = trun buf pos l s.
Proof.
  induction l as [|c l IH]; intros pos s Hf Hl; [reflexivity|].
  rewrite blen_cons in Hl. pose proof (blen_nonneg l).
  rewrite !trun_cons. destruct (tra (cs (tp s)) c) as [|acts n|] eqn:E; auto.
  destruct (finv_step buf pos c s acts n Hf E ltac:(lia)) as [Hf' Hx].
  rewrite Hx. apply IH; auto. lia.
Qed.

Lemma finv_init p0 : finv 0 (ts_init p0).
Proof. split; [lia|]. split; [cbn; lia|]. split; cbn; intros; discriminate. Qed.

(** ** Parsing a whole buffer from scratch, and doing it incrementally *)

(* what the parser state is after having been fed exactly [buf] since init, in whatever pieces *)
Definition parsed (p0 : tparser) (buf : bytes) : tstate := texecute buf 0 (ts_init p0).

Lemma texecute_unfold buf off s : texecute buf off s =
  let '(s', p) := trun buf off (skipn (Z.to_nat off) buf) s in
  let s' := with_tp (fun q => set_nread (nread q + (p - off)) q) s' in
  if body_start (tp s') =? 0 then s' else with_tp (fun q => set_nread (nread q + 1) q) s'.
Proof. reflexivity. Qed.

Lemma parsed_eq p0 buf : parsed p0 buf =
  let '(s', p) := trun buf 0 buf (ts_init p0) in
  let s' := with_tp (fun q => set_nread (nread q + (p - 0)) q) s' in
  if body_start (tp s') =? 0 then s' else with_tp (fun q => set_nread (nread q + 1) q) s'.
Proof. reflexivity. Qed.

Lemma parsed_drun p0 buf :
  match drun 1 buf with
  | DErr => cs (tp (parsed p0 buf)) = 0
  | DMore n => cs (tp (parsed p0 buf)) = n /\ nread (tp (parsed p0 buf)) = blen buf /\
               body_start (tp (parsed p0 buf)) = 0
  | DDone r => cs (tp (parsed p0 buf)) = 58 /\
               body_start (tp (parsed p0 buf)) = blen buf - blen r /\
               nread (tp (parsed p0 buf)) = blen buf - blen r + 1
  end.
Proof.
  rewrite parsed_eq. pose proof (trun_drun buf buf 0 (ts_init p0)) as H.
  destruct (trun buf 0 buf (ts_init p0)) as [s' p]. destruct H as [Hn H]. change (cs (tp (ts_init p0))) with 1 in H.
  change (nread (tp (ts_init p0))) with 0 in Hn. change (body_start (tp (ts_init p0))) with 0 in H.
  cbn [with_tp tp set_nread nread body_start].
  destruct (drun 1 buf).
  - destruct H as (A & B & C). rewrite C. cbn. auto.
  - destruct H as (A & B & C). rewrite C. cbn. repeat split; auto. lia.
  - destruct H as (A & B & C & D). rewrite D. destruct (Z.eqb_spec p 0); [lia|]. cbn. repeat split; auto; lia.
Qed.

(** set_nread does not influence the run *)
Lemma trun_set_nread buf n : forall l pos s,
  trun buf pos l (with_tp (set_nread n) s) =
  (with_tp (set_nread n) (fst (trun buf pos l s)), snd (trun buf pos l s)).
Proof.
  induction l as [|c l IH]; intros pos s; [reflexivity|].
  rewrite !trun_cons. change (cs (tp (with_tp (set_nread n) s))) with (cs (tp s)).
  destruct (tra (cs (tp s)) c) as [|acts m|]; [reflexivity| |reflexivity].
  replace (goto m (do_acts buf pos acts (with_tp (set_nread n) s)))
    with (with_tp (set_nread n) (goto m (do_acts buf pos acts s))); [apply IH|].
  clear. revert s. induction acts as [|a acts IH]; intros s; [reflexivity|].
  unfold do_acts in *; cbn [fold_left].
  replace (do_act buf pos a (with_tp (set_nread n) s)) with (with_tp (set_nread n) (do_act buf pos a s))
    by (destruct a; reflexivity).
  apply IH.
Qed.

(** The incremental step: executing on the longer buffer from where we stopped is parsing it all. *)
Theorem parsed_incremental p0 buf more n : drun 1 buf = DMore n ->
  texecute (buf ++ more) (nread (tp (parsed p0 buf))) (parsed p0 buf) = parsed p0 (buf ++ more).
Proof.
  intros Hd. pose proof (parsed_drun p0 buf) as P. rewrite Hd in P. destruct P as (Pc & Pn & Pb).
  rewrite Pn. rewrite texecute_unfold.
  replace (skipn (Z.to_nat (blen buf)) (buf ++ more)) with more.
  2:{ unfold blen. rewrite Nat2Z.id, skipn_app, skipn_all, Nat.sub_diag. reflexivity. }
  rewrite (parsed_eq p0 (buf ++ more)).
  pose proof (trun_app (buf ++ more) buf more 0 (ts_init p0)) as A.
  change (cs (tp (ts_init p0))) with 1 in A. rewrite Hd in A. rewrite A. clear A.
  rewrite (trun_ext buf more buf 0 (ts_init p0) (finv_init p0)) by lia.
  assert (Q : parsed p0 buf = with_tp (set_nread (blen buf)) (fst (trun buf 0 buf (ts_init p0)))).
  { rewrite parsed_eq in *. pose proof (trun_drun buf buf 0 (ts_init p0)) as H.
    destruct (trun buf 0 buf (ts_init p0)) as [s' p]. change (cs (tp (ts_init p0))) with 1 in H.
    rewrite Hd in H. destruct H as (Hn & H1 & H2 & H3). change (body_start (tp (ts_init p0))) with 0 in H3.
    change (nread (tp (ts_init p0))) with 0 in Hn. cbn [fst]. cbn [with_tp tp set_nread nread body_start].
    rewrite H3. change (0 =? 0) with true. cbv match. unfold with_tp. rewrite H2, Hn, Z.sub_0_r, !Z.add_0_l. reflexivity. }
  rewrite Q. rewrite trun_set_nread. rewrite Z.add_0_l.
  pose proof (trun_drun (buf ++ more) more (blen buf) (fst (trun buf 0 buf (ts_init p0)))) as R.
  destruct (trun (buf ++ more) (blen buf) more (fst (trun buf 0 buf (ts_init p0)))) as [s2 p2].
  destruct R as [R _]. cbn [fst snd].
  pose proof (trun_drun buf buf 0 (ts_init p0)) as H. destruct (trun buf 0 buf (ts_init p0)) as [s' p].
  destruct H as [H _]. cbn [fst] in R. change (nread (tp (ts_init p0))) with 0 in H. rewrite H in R.
  cbn [with_tp tp set_nread nread body_start refs cl_index cs].
  unfold with_tp; cbn [tp nread set_nread refs cl_index]; rewrite ?R. replace (blen buf + (p2 - blen buf)) with (0 + (p2 - 0)) by lia. reflexivity.
Qed.

(** ** Grammar theorems *)

Lemma app_len_inj (a b c d : bytes) : length a = length c -> a ++ b = c ++ d -> a = c /\ b = d.
Proof.
  revert c; induction a as [|x a IH]; intros [|y c]; cbn; try discriminate; auto.
  intros L E. injection E as -> E. injection L as L. destruct (IH _ L E) as [-> ->]. auto.
Qed.

Lemma drun_complete h r : wf_head h -> drun 1 (head_text h ++ r) = DDone r.
Proof.
  intros W. destruct (trun_head h tp_zero r W) as (s' & E & HP & _).
  pose proof (trun_drun (head_text h ++ r) (head_text h ++ r) 0 (ts_init tp_zero)) as H.
  rewrite E in H. change (cs (tp (ts_init tp_zero))) with 1 in H. destruct H as [_ H].
  destruct (drun 1 (head_text h ++ r)) as [|n|r'] eqn:D.
  - destruct H as (H & _). rewrite (hp_cs _ _ HP) in H. discriminate.
  - apply drun_more in D; [|lia]. destruct H as (H & _). rewrite (hp_cs _ _ HP) in H. lia.
  - destruct H as (_ & H & _). f_equal.
    (* both rests are suffixes of the same list with the same length *)
    assert (Suf : forall l s q, drun s l = DDone q -> exists pre, l = pre ++ q).
    { clear. induction l as [|c l IH]; intros s q; cbn; [discriminate|].
      destruct (tra s c); try discriminate.
      - intros Hq. apply IH in Hq. destruct Hq as [pre ->]. exists (c :: pre). reflexivity.
      - intros [= <-]. exists [c]. reflexivity. }
    apply Suf in D. destruct D as [pre D].
    unfold o_body in H. rewrite blen_app in H. assert (L : length r' = length r) by (unfold blen in H; lia).
    assert (L2 : length pre = length (head_text h)).
    { apply (f_equal (@length ascii)) in D. rewrite !app_length in D. lia. }
    apply app_len_inj in D; [|congruence]. destruct D; congruence.
Qed.

Theorem drun_iff l r : drun 1 l = DDone r <-> exists h, wf_head h /\ l = head_text h ++ r.
Proof.
  split; [apply drun_sound|]. intros (h & W & ->). now apply drun_complete.
Qed.

(* [l] can still become a request head *)
Definition viable (l : bytes) : Prop := exists ext h r, wf_head h /\ l ++ ext = head_text h ++ r.

Theorem drun_err_iff l : drun 1 l = DErr <-> ~ viable l.
Proof.
  split.
  - intros E (ext & h & r & W & Eq).
    pose proof (drun_complete h r W) as C. rewrite <- Eq, drun_app, E in C. discriminate.
  - intros NV. destruct (drun 1 l) as [|n|r] eqn:D; auto; exfalso; apply NV.
    + pose proof (drun_more 1 _ _ ltac:(lia) D) as Hn.
      pose proof (live n Hn) as L.
      assert (C : drun 1 (l ++ witness n) = DDone []) by (rewrite drun_app, D; exact L).
      apply drun_sound in C. destruct C as (h & W & C). exists (witness n), h, []. auto.
    + apply drun_sound in D. destruct D as (h & W & ->). exists [], h, r. rewrite app_nil_r. auto.
Qed.

Lemma viable_prefix a b : viable (a ++ b) -> viable a.
Proof. intros (ext & h & r & W & E). exists (b ++ ext), h, r. now rewrite app_assoc. Qed.

(** full parse of a buffer holding a complete head *)
Theorem parsed_head h p0 rest : wf_head h ->
  head_parsed h (parsed p0 (head_text h ++ rest)) /\
  nread (tp (parsed p0 (head_text h ++ rest))) = o_body h + 1.
Proof.
  intros W. destruct (trun_head h p0 rest W) as (s' & E & HP & Hn).
  rewrite parsed_eq, E. cbn [with_tp tp set_nread nread body_start].
  rewrite (hp_body _ _ HP).
  assert (P : o_body h <> 0).
  { rewrite o_body_eq. unfold o_headers, o_version_end, o_version, o_target_end, o_target.
    pose proof (blen_nonneg (concat (map hline_text (hd_headers h)))).
    pose proof (blen_nonneg (version_text h)). pose proof (blen_nonneg (fragment_text h)).
    pose proof (blen_nonneg (target_text (hd_target h))). pose proof (blen_nonneg (hd_method h)). lia. }
  destruct (Z.eqb_spec (o_body h) 0); [contradiction|].
  split; [|cbn; lia]. destruct HP. constructor; auto.
Qed.
