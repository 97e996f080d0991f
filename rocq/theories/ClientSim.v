(** The client's parser does what the parser alone does. *)
From Verif Require Import Bytes ByteHelpers Helpers TextSpec Joyent RespParser RespInv RespSplit RespSpec RespFeed RespBody RespWhole Client ClientSpec ClientInv.
Open Scope Z_scope.

(** ** Content callbacks are never empty *)
Definition NB (l : locals) : Prop := forall b, l_body l = Some b -> b <> [].
Definition NBres (res : jres) : Prop :=
  match res with
  | Next _ l => NB l
  | Call c _ l _ => NB l /\ (forall b, c = CbBody b -> b <> [])
  | _ => True
  end.
Lemma nb_adv l : NB l -> NB (advance l).
Proof.
  unfold NB, advance. intros H. destruct (l_data l); cbn [l_body]; auto. intros b0 E. unfold moved, option_map in E.
  destruct (l_body l) as [b1|]; [|discriminate]. injection E as <-. destruct b1; discriminate.
Qed.
Lemma nb_same l l' : NB l -> l_body l' = l_body l -> NB l'.
Proof. unfold NB. intros H ->. exact H. Qed.
Lemma nb_none l : l_body l = None -> NB l.
Proof. unfold NB. intros ->. discriminate. Qed.
Lemma nb_brk h l : NB l -> NBres (brk h l).
Proof. exact (nb_adv l). Qed.
Lemma nb_notify c h l : NB l -> (forall b, c <> CbBody b) -> NBres (notify c h l).
Proof. intros H N. split; [now apply nb_adv|]. intros b ->. exfalso. now apply (N b). Qed.
Lemma nb_field h l : NB l -> NBres (data_field h l).
Proof. intros H. unfold data_field. destruct (l_field l); [|now apply nb_brk]. split; [apply nb_adv; exact H|discriminate]. Qed.
Lemma nb_value h l : NB l -> NBres (data_value h l).
Proof. intros H. unfold data_value. destruct (l_value l); [|now apply nb_brk]. split; [apply nb_adv; exact H|discriminate]. Qed.
Lemma nb_body h l : NB l -> NBres (data_body h l).
Proof.
  intros H. unfold data_body. destruct (l_body l) as [b|] eqn:E; [|now apply nb_brk].
  split; [apply nb_adv, nb_none; reflexivity|]. intros b0 E0. injection E0 as <-. now apply H.
Qed.
Lemma firstn_pos {A} (l : list A) n : (1 <= n)%nat -> l <> [] -> firstn n l <> [].
Proof. destruct n; [lia|]. destruct l; cbn; congruence. Qed.

Lemma jbyte_nb ch h l : NB l -> l_data l <> [] -> 0 <= h_cl h -> NBres (jbyte ch h l).
Proof.
  intros H D C. unfold jbyte.
  assert (Bl : 1 <= blen (l_data l)) by (destruct (l_data l) as [|x xs]; [congruence|]; rewrite blen_cons; pose proof (blen_nonneg xs); lia).
  assert (G : forall n, 1 <= n -> match l_body l with None => firstn (Z.to_nat n) (l_data l) | Some b => b ++ firstn (Z.to_nat n) (l_data l) end <> []).
  { intros n Hn. pose proof (firstn_pos (l_data l) (Z.to_nat n) ltac:(lia) D) as X. destruct (l_body l) as [b|]; auto.
    intros Y. apply app_eq_nil in Y as [_ Y]. auto. }
  destruct (h_state h);
  repeat match goal with
  | |- NBres (if ?x then _ else _) => destruct x eqn:?
  | |- NBres (match ?x with Some _ => _ | None => _ end) => destruct x as [?|] eqn:?
  | |- NBres (let (_, _) := ?x in _) => destruct x
  | |- NBres (match ?x with VOk _ => _ | VBad => _ | VAssert => _ end) => destruct x
  end; try exact I;
  try (apply nb_brk; exact H); try (apply nb_notify; [exact H|discriminate]); try (apply nb_field; exact H); try (apply nb_value; exact H);
  try (apply nb_body; exact H); try exact H.
  all: try (split; [exact H|discriminate]).
  - split; [now apply nb_none|discriminate].
  - intros b E. injection E as <-. apply G. apply Bool.orb_false_iff in Heqb as [Heqb _]. apply Bool.orb_false_iff in Heqb as [_ Heqb].
    apply Z.eqb_neq in Heqb. lia.
  - apply Bool.orb_false_iff in Heqb as [Heqb _]. apply Z.eqb_neq in Heqb.
    split; [now apply nb_none|]. intros b E. injection E as <-. apply G. lia.
  - apply Bool.orb_false_iff in Heqb as [Heqb _]. apply Z.eqb_neq in Heqb. intros b E. injection E as <-. apply G. lia.
  - intros b E. injection E as <-. destruct (l_body l) as [b|]; auto. intros Y. apply app_eq_nil in Y as [_ Y]. auto.
Qed.
Lemma jstep_nb h l : NB l -> JOk h l -> NBres (jstep h l).
Proof.
  intros H J. unfold jstep. destruct (l_data l) as [|ch d] eqn:E.
  - destruct (1 <? marks l)%nat; [exact I|]. destruct (l_field l); [split; [exact H|discriminate]|].
    destruct (l_value l); [split; [exact H|discriminate]|].
    destruct (l_body l) as [b|] eqn:Eb; [|exact I]. split; [now apply nb_none|]. intros b0 E0. injection E0 as <-. now apply H.
  - assert (C : 0 <= h_cl h) by apply (jo_h _ _ J). assert (D : l_data l <> []) by congruence.
    destruct (l_re l); [now apply jbyte_nb|]. destruct (parsing_header (h_state h)); [|now apply jbyte_nb].
    cbn zeta. destruct (HTTP_MAX_HEADER_SIZE <? _); [exact I|]. apply jbyte_nb; auto.
Qed.

(** ** The same run *)
Record sim (p q : rparser) : Prop := mkSim {
  si_h : r_h p = r_h q; si_f : r_field p = r_field q; si_v : r_value p = r_value q; si_l : r_lwv p = r_lwv q; si_hs : r_headers p = r_headers q }.
Definition quiet_ev (e : RespParser.rev) : Prop := match e with RBegin => True | RHeaders _ _ c _ => c = 100 | _ => False end.
Record Quiet (p q p' q' : rparser) (s : list RespParser.rev) : Prop := mkQuiet {
  qu_sim : sim p' q';
  qu_p : r_parsing p' = r_parsing p;
  qu_log : r_log q' = r_log q ++ s;
  qu_ev : Forall quiet_ev s;
  qu_c : r_content p' = r_content p \/ In RBegin s /\ r_content p' = [] }.

Lemma sim_refl p : sim p p.
Proof. constructor; reflexivity. Qed.
Lemma sim_h h p q : sim p q -> sim (rset_h h p) (rset_h h q).
Proof. intros [A B C D E]. constructor; rsimp; auto. Qed.
Lemma sim_push p q : sim p q -> sim (pushHeader p) (pushHeader q).
Proof. intros [A B C D E]. unfold pushHeader. destruct (r_lwv p) eqn:L, (r_lwv q) eqn:L'; try discriminate; constructor; rsimp; congruence. Qed.
Lemma sim_cb c p q : sim p q -> sim (on_cb c p) (on_cb c q).
Proof.
  intros S. pose proof (sim_push _ _ S) as P. destruct S as [A B C D E], P as [A' B' C' D' E'].
  destruct c; cbn [on_cb]; constructor; rsimp; auto; congruence.
Qed.

Lemma quiet_refl p q : sim p q -> Quiet p q p q [].
Proof. intros S. constructor; auto. now rewrite app_nil_r. Qed.
Lemma quiet_h h p q p' q' s : Quiet (rset_h h p) (rset_h h q) p' q' s -> Quiet p q p' q' s.
Proof. intros [A B C D E]. constructor; auto. Qed.
(* the callbacks that say nothing to the user *)
Lemma quiet_cb c p q p' q' s : (match c with CbBegin | CbField _ | CbValue _ => True | CbHeaders => h_status (r_h p) = 100 | _ => False end) ->
  sim p q -> Quiet (on_cb c p) (on_cb c q) p' q' s -> exists s', Quiet p q p' q' s'.
Proof.
  intros Q S [A B C D E]. rewrite on_cb_parsing in B.
  destruct c as [|b|b| |b|]; try contradiction; cbn [on_cb] in C, E; rsimp in *.
  - exists (RBegin :: s). rewrite <- app_assoc in C. constructor; [exact A|exact B|exact C|apply Forall_cons; [exact Logic.I|exact D]|].
    right. split; [now left|]. destruct E as [E|[_ E]]; exact E.
  - exists s. assert (X : r_log (pushHeader q) = r_log q /\ r_content (pushHeader p) = r_content p)
      by (unfold pushHeader; destruct (r_lwv q), (r_lwv p); auto). destruct X as [X1 X2]. rewrite X1, X2 in *. constructor; auto.
  - exists s. constructor; auto.
  - assert (X : r_log (pushHeader q) = r_log q /\ r_content (pushHeader p) = r_content p /\ r_h (pushHeader q) = r_h q)
      by (unfold pushHeader; destruct (r_lwv q), (r_lwv p); auto). destruct X as (X1 & X2 & X3). rewrite X1, X2, X3 in *.
    eexists. rewrite <- app_assoc in C. constructor; [exact A|exact B|exact C| |].
    + constructor; auto. cbn. rewrite <- (si_h _ _ S). exact Q.
    + destruct E as [E|[E1 E2]]; auto. right. split; auto. now right.
Qed.

Definition SimRes (p q : rparser) (R : option (rparser * bytes)) (res : pres) : Prop :=
  match res with
  | PFault => False
  | PEnd p' er => exists q' s, R = Some (q', er) /\ Quiet p q p' q' s /\ h_errno (r_h q') <> HPE_PAUSED
  | PCall c p' l' er => exists q' s, Quiet p q p' q' s /\ JOk (r_h q') l' /\ NB l' /\
      match c with
      | CbHeaders => h_status (r_h q') <> 100 /\ R = J (on_cb CbHeaders q') l'
      | CbBody b => b <> [] /\ R = J (on_cb (CbBody b) q') l'
      | CbComplete => R = Some (on_cb CbComplete q', er)
      | _ => False
      end
  end.

Lemma simres_cb c p q R res : (match c with CbBegin | CbField _ | CbValue _ => True | CbHeaders => h_status (r_h p) = 100 | _ => False end) ->
  sim p q -> SimRes (on_cb c p) (on_cb c q) R res -> SimRes p q R res.
Proof.
  intros Q S H. destruct res as [p' er|c' p' l' er|]; cbn [SimRes] in *; auto.
  - destruct H as (q' & s & A & B & C). apply quiet_cb in B as [s' B]; auto. exists q', s'. auto.
  - destruct H as (q' & s & A & B). apply quiet_cb in A as [s' A]; auto. exists q', s'. auto.
Qed.
Lemma simres_h h p q R res : SimRes (rset_h h p) (rset_h h q) R res -> SimRes p q R res.
Proof.
  intros H. destruct res as [p' er|c' p' l' er|]; cbn [SimRes] in *; auto.
  - destruct H as (q' & s & A & B & C). apply quiet_h in B. exists q', s. auto.
  - destruct H as (q' & s & A & B). apply quiet_h in A. exists q', s. auto.
Qed.

Lemma prun_sim_end f p q l : sim p q -> JOk (r_h q) l -> NB l -> l_data l = [] -> (mu (r_h q) l <= f)%nat -> SimRes p q (J q l) (prun f p l).
Proof.
  intros S HJ NBl D F. pose proof HJ as HJ0. pose proof (J_end q l HJ D) as EJ.
  destruct HJ as [Hh He Hf Hv Hb Hr]. destruct l as [d fm v b re]; cbn [l_data l_field l_value l_body l_re] in *. subst d.
  unfold mu, marks in F. cbn [l_data l_field l_value l_body l_re] in F.
  assert (re = false) by (destruct re; auto; destruct (Hr eq_refl); congruence). subst re.
  destruct f as [|f]; [lia|]. cbn [prun]. unfold jstep. cbn [l_data l_field l_value l_body].
  unfold marks; cbn [l_field l_value l_body]. unfold eff in EJ; cbn [l_field l_value l_body] in EJ.
  assert (ST : forall s, h_state (r_h q) = s -> h_errno (r_h q) <> HPE_PAUSED) by (intros; rewrite He; discriminate).
  assert (QF : forall b0, Quiet p q (on_cb (CbField b0) p) (on_cb (CbField b0) q) []).
  { intros b0. constructor; [now apply sim_cb|apply on_cb_parsing| | |]; auto; cbn [on_cb]; rsimp; unfold pushHeader.
    - destruct (r_lwv q); rsimp; now rewrite app_nil_r.
    - destruct (r_lwv p); auto. }
  assert (QV : forall b0, Quiet p q (on_cb (CbValue b0) p) (on_cb (CbValue b0) q) []).
  { intros b0. constructor; [now apply sim_cb|apply on_cb_parsing| | |]; auto; cbn [on_cb]; rsimp; now rewrite ?app_nil_r. }
  rewrite <- (si_h _ _ S) in *.
  destruct (h_state (r_h p)) eqn:St; cbn in Hf, Hv; destruct fm, v; try discriminate;
  (destruct b as [b|]; [try (specialize (Hb eq_refl); discriminate)|]); cbn [Nat.add Nat.ltb Nat.leb] in *;
  rewrite ?rset_h_id.
  all: try (exists q, []; split; [exact EJ|]; split; [now apply quiet_refl|]; rewrite <- (si_h _ _ S), He; discriminate).
  1,2: rewrite on_cb_h by discriminate; rewrite He; cbn [is_ok]; unfold no_field, no_value; cbn [l_data l_field l_value l_body l_re];
    rewrite prun_nomark by lia; eexists; exists []; split; [exact EJ|]; split; [auto|]; rewrite on_cb_h by discriminate;
    rewrite <- (si_h _ _ S), He; discriminate.
  all: assert (HJ2 : JOk (r_h q) (mkL [] None None None false)) by
     (rewrite <- (si_h _ _ S); constructor; cbn [l_data l_field l_value l_body l_re isSome]; rewrite ?St; auto; discriminate);
    exists q, []; split; [now apply quiet_refl|]; split; [exact HJ2|]; split; [now apply nb_none|]; split; [now apply (NBl b)|]; rewrite EJ; symmetry;
    apply (J_end (on_cb (CbBody b) q) (mkL [] None None None false)); [rewrite on_cb_h by discriminate; exact HJ2|reflexivity].
Qed.

Lemma prun_sim : forall f p q l, sim p q -> JOk (r_h q) l -> NB l -> (mu (r_h q) l <= f)%nat -> SimRes p q (J q l) (prun f p l).
Proof.
  induction f as [|f IH]; intros p q l S HJ NBl F.
  { exfalso. unfold mu in F. destruct (l_data l); cbn [length] in F; lia. }
  destruct (list_eq_dec ascii_dec (l_data l) []) as [D|D]; [now apply prun_sim_end|].
  pose proof (jstep_inv _ _ HJ D) as G. pose proof (jstep_nb _ _ NBl HJ) as NG. pose proof (J_step _ _ HJ D) as EJ.
  unfold mstep, after in EJ. cbn [prun]. rewrite (si_h _ _ S).
  destruct (jstep (r_h q) l) as [h l'|c h l' er|h er|]; cbn [Good NBres] in G, NG; try contradiction.
  - destruct G as [J1 M1]. specialize (IH (rset_h h p) (rset_h h q) l' (sim_h h _ _ S) J1 NG). rsimp in *. specialize (IH ltac:(lia)).
    rewrite EJ. eapply simres_h; eauto.
  - destruct G as [J1 M1]. destruct NG as [N1 N2]. pose proof (sim_h h _ _ S) as S1.
    assert (O : forall c0 r, r_h r = h -> c0 <> CbComplete -> is_ok (h_errno (r_h (on_cb c0 r))) = true).
    { intros c0 r Er N. rewrite on_cb_h, Er by auto. now rewrite (jo_errno _ _ J1). }
    assert (Q : (match c with CbBegin | CbField _ | CbValue _ => True | CbHeaders => h_status h = 100 | _ => False end) ->
       SimRes p q (J q l) (prun f (on_cb c (rset_h h p)) l')).
    { intros K. assert (N : c <> CbComplete) by (destruct c; try discriminate; contradiction).
      cbn zeta in EJ. rewrite O in EJ by auto. rewrite EJ. apply (simres_h h), (simres_cb c); auto.
      apply IH; auto; [now apply sim_cb|..]; rewrite on_cb_h by auto; rsimp; auto; lia. }
    assert (QR : sim (rset_h h p) (rset_h h q) /\ Quiet p q (rset_h h p) (rset_h h q) []).
    { split; auto. apply (quiet_h h). now apply quiet_refl. }
    destruct QR as [_ QR]. cbn zeta in EJ.
    destruct c as [|b|b| |b|]; rewrite ?O by (auto; discriminate); try (apply Q; exact I).
    + rsimp. destruct (Z.eqb_spec (h_status h) 100) as [E|E]; [apply Q; exact E|].
      rewrite O in EJ by (auto; discriminate). exists (rset_h h q), []. rsimp. split; auto.
    + rewrite O in EJ by (auto; discriminate). exists (rset_h h q), []. rsimp. split; auto.
    + exists (rset_h h q), []. rsimp. split; auto. split; auto. split; auto. rewrite EJ.
      assert (X : is_ok (h_errno (r_h (on_cb CbComplete (rset_h h q)))) = false).
      { cbn [on_cb]. rsimp. rewrite hpause_errno; auto. left. exact (jo_errno _ _ J1). }
      now rewrite X.
  - exists (rset_h h q), []. destruct G as [G1 G2]. split; [exact EJ|]. split; [apply (quiet_h h), quiet_refl; now apply sim_h|]. rsimp. auto.
Qed.
Lemma parse_sim p q l : sim p q -> JOk (r_h q) l -> NB l -> SimRes p q (J q l) (prun (pfuel l) p l).
Proof. intros S HJ N. apply prun_sim; auto. pose proof (mu_le (r_h q) l). unfold pfuel. lia. Qed.
