(** Cutting the data given to the response parser in two. *)
From Verif Require Import Bytes ByteHelpers Helpers Joyent RespParser RespInv.
Open Scope Z_scope.

(** ** http_parser_execute without fuel *)
Definition J (r : rparser) (l : locals) : option (rparser * bytes) := jrun (mu (r_h r) l) r l.

Lemma is_ok_true e : is_ok e = true -> e = HPE_OK.
Proof. destruct e; cbn; congruence. Qed.

Lemma on_cb_h c r : c <> CbComplete -> r_h (on_cb c r) = r_h r.
Proof. destruct c; cbn; intros; try congruence; unfold pushHeader; destruct (r_lwv r); reflexivity. Qed.

(** what the callbacks pending at the end of the data do *)
Definition eff (r : rparser) (l : locals) : rparser :=
  let r := match l_field l with Some b => on_cb (CbField b) r | None => r end in
  let r := match l_value l with Some b => on_cb (CbValue b) r | None => r end in
  match l_body l with Some b => on_cb (CbBody b) r | None => r end.

Lemma rset_h_id r : rset_h (r_h r) r = r.
Proof. destruct r; reflexivity. Qed.
Lemma eff_h r l : r_h (eff r l) = r_h r.
Proof. unfold eff. destruct (l_field l), (l_value l), (l_body l); cbn; unfold pushHeader; destruct (r_lwv r); reflexivity. Qed.

Lemma jrun_nomark f r re : (1 <= f)%nat -> jrun f r (mkL [] None None None re) = Some (r, []).
Proof. intros H. destruct f as [|f]; [lia|]. cbn. now rewrite rset_h_id. Qed.
Lemma jrun_end f r l : JOk (r_h r) l -> l_data l = [] -> (mu (r_h r) l <= f)%nat -> jrun f r l = Some (eff r l, []).
Proof.
  intros [Hh He Hf Hv Hb Hr] D F. destruct l as [d fm v b re]; cbn [l_data l_field l_value l_body l_re] in *. subst d.
  unfold mu, marks in F. cbn [l_data l_field l_value l_body l_re] in F.
  destruct f as [|f]; [lia|]. cbn [jrun]. unfold jstep. cbn [l_data l_field l_value l_body].
  unfold marks, eff; cbn [l_field l_value l_body].
  destruct (h_state (r_h r)) eqn:S; cbn in Hf, Hv; destruct fm, v; try discriminate;
  (destruct b as [b|]; [try (specialize (Hb eq_refl); discriminate)|]); cbn [Nat.add Nat.ltb Nat.leb] in *;
  rewrite ?rset_h_id; auto;
  rewrite on_cb_h by discriminate; rewrite He; cbn [is_ok no_field no_value no_body l_data l_field l_value l_body l_re];
  apply jrun_nomark; lia.
Qed.

Lemma jok_step r l : JOk (r_h r) l -> l_data l <> [] -> forall h l',
  (jstep (r_h r) l = Next h l' -> JOk h l' /\ (mu h l' < mu (r_h r) l)%nat) /\
  (forall c er, jstep (r_h r) l = Call c h l' er -> JOk h l' /\ (mu h l' < mu (r_h r) l)%nat).
Proof.
  intros HJ D h l'. pose proof (jstep_inv _ _ HJ D) as G. split; [intros E|intros c er E]; rewrite E in G; exact G.
Qed.

Lemma jrun_fuel : forall f1 f2 r l, JOk (r_h r) l -> (mu (r_h r) l <= f1)%nat -> (mu (r_h r) l <= f2)%nat ->
  jrun f1 r l = jrun f2 r l.
Proof.
  induction f1 as [f1 IH] using lt_wf_ind; intros f2 r l HJ H1 H2.
  destruct (list_eq_dec ascii_dec (l_data l) []) as [D|D].
  - rewrite !jrun_end; auto.
  - pose proof (jstep_inv _ _ HJ D) as G. pose proof (mu_big (r_h r) l D).
    destruct f1 as [|f1]; [lia|]. destruct f2 as [|f2]; [lia|]. cbn [jrun].
    destruct (jstep (r_h r) l) as [h l'|c h l' er|h er|]; cbn [Good] in G; auto.
    + destruct G. apply IH; rsimp; auto; lia.
    + destruct G as [G1 G2]. destruct (is_ok _) eqn:O; auto.
      assert (c <> CbComplete) by (intros ->; cbn in O; unfold hpause in O; rsimp in *; rewrite (jo_errno _ _ G1) in O; discriminate).
      apply IH; rewrite ?on_cb_h by auto; rsimp; auto; lia.
Qed.

Lemma J_end r l : JOk (r_h r) l -> l_data l = [] -> J r l = Some (eff r l, []).
Proof. intros. apply jrun_end; auto. Qed.

(** one step, callback included *)
Inductive outcome := OGo (r : rparser) (l : locals) | ORet (r : rparser) (er : bytes) | OAssert.
Definition after (r : rparser) (res : jres) : outcome :=
  match res with
  | Next h l' => OGo (rset_h h r) l'
  | Call c h l' er => let r' := on_cb c (rset_h h r) in if is_ok (h_errno (r_h r')) then OGo r' l' else ORet r' er
  | Ret h er => ORet (rset_h h r) er
  | Assert => OAssert
  end.
Definition mstep (r : rparser) (l : locals) : outcome := after r (jstep (r_h r) l).

Lemma J_step r l : JOk (r_h r) l -> l_data l <> [] ->
  J r l = match mstep r l with OGo r' l' => J r' l' | ORet r' er => Some (r', er) | OAssert => None end.
Proof.
  intros HJ D. pose proof (jstep_inv _ _ HJ D) as G. pose proof (mu_big (r_h r) l D).
  unfold J. destruct (mu (r_h r) l) as [|f] eqn:M; [lia|]. cbn [jrun]. unfold mstep, after.
  destruct (jstep (r_h r) l) as [h l'|c h l' er|h er|]; cbn [Good] in G; auto; destruct G as [G1 G2].
  - apply jrun_fuel; rsimp; auto; lia.
  - destruct (is_ok _) eqn:O; auto.
    assert (c <> CbComplete) by (intros ->; cbn in O; unfold hpause in O; rsimp in *; rewrite (jo_errno _ _ G1) in O; discriminate).
    apply jrun_fuel; rewrite ?on_cb_h by auto; rsimp; auto; lia.
Qed.

Lemma mstep_inv r l : JOk (r_h r) l -> l_data l <> [] ->
  match mstep r l with
  | OGo r' l' => JOk (r_h r') l' /\ (mu (r_h r') l' < mu (r_h r) l)%nat
  | ORet r' er => h_errno (r_h r') <> HPE_OK /\ (h_errno (r_h r') = HPE_PAUSED -> HOk (r_h r'))
  | OAssert => False
  end.
Proof.
  intros HJ D. pose proof (jstep_inv _ _ HJ D) as G. unfold mstep, after.
  destruct (jstep (r_h r) l) as [h l'|c h l' er|h er|]; cbn [Good] in G; rsimp; auto.
  - destruct G as [G1 G2]. destruct (is_ok _) eqn:O.
    + assert (c <> CbComplete) by (intros ->; cbn in O; unfold hpause in O; rsimp in *; rewrite (jo_errno _ _ G1) in O; discriminate).
      rewrite ?on_cb_h by auto. rsimp. auto.
    + destruct c; try (rewrite on_cb_h in O by discriminate; rsimp in *; rewrite (jo_errno _ _ G1) in O; discriminate).
      cbn. unfold hpause. rewrite (jo_errno _ _ G1). hsimp. split; [discriminate|].
      intros _. destruct G1 as [G1 _ _ _ _ _]. exact G1.
  - split; [tauto|]. intros E. tauto.
Qed.

(** every run ends *)
Lemma J_total : forall n r l, (mu (r_h r) l <= n)%nat -> JOk (r_h r) l -> exists r' er, J r l = Some (r', er) /\
  (h_errno (r_h r') = HPE_OK -> HOk (r_h r') /\ er = []) /\ (h_errno (r_h r') = HPE_PAUSED -> HOk (r_h r')).
Proof.
  induction n as [n IH] using lt_wf_ind; intros r l Hn HJ.
  destruct (list_eq_dec ascii_dec (l_data l) []) as [D|D].
  - exists (eff r l), []. rewrite J_end by auto. split; auto. rewrite eff_h. destruct HJ as [A B _ _ _ _].
    split; auto.
  - rewrite J_step by auto. pose proof (mstep_inv _ _ HJ D) as G. destruct (mstep r l) as [r' l'|r' er|]; [| |destruct G].
    + destruct G. apply (IH (mu (r_h r') l')); auto; lia.
    + exists r', er. split; auto. tauto.
Qed.

(** ** Two runs on the same data, one of which made some callbacks earlier *)
Definition pend (m : option bytes) : bytes := match m with Some b => b | None => [] end.
Record Sim (rA : rparser) (lA : locals) (rB : rparser) (lB : locals) : Prop := mkSim {
  sm_h : r_h rA = r_h rB;
  sm_data : l_data lA = l_data lB;
  sm_re : l_re lA = l_re lB;
  sm_A : JOk (r_h rA) lA;
  sm_B : JOk (r_h rB) lB;
  sm_eff : eff rA lA = eff rB lB;
  sm_more : exists x, pend (l_body lA) = x ++ pend (l_body lB) /\ r_content rB = r_content rA ++ x /\
              r_log rB = r_log rA ++ map RByte x }.
(** results: the same, except that after an error the first run may have reported less content *)
Definition RR (rA rB : rparser) : Prop :=
  r_h rA = r_h rB /\ r_parsing rA = r_parsing rB /\
  (h_errno (r_h rA) = HPE_OK \/ h_errno (r_h rA) = HPE_PAUSED -> rA = rB) /\
  exists x, r_content rB = r_content rA ++ x /\ r_log rB = r_log rA ++ map RByte x.

Lemma RR_refl r : RR r r.
Proof. repeat split; auto. exists []. cbn. now rewrite !app_nil_r. Qed.

Lemma eff_parsing r l : r_parsing (eff r l) = r_parsing r.
Proof. unfold eff. destruct (l_field l), (l_value l), (l_body l); cbn; unfold pushHeader; destruct (r_lwv r); reflexivity. Qed.

Lemma map_app_nil {A B} (f : A -> B) l (x y : list A) : l ++ map f x ++ map f y = l ++ map f (x ++ y).
Proof. now rewrite map_app. Qed.

(* without marks: the same configuration *)
Lemma sim_plain rA lA rB lB : Sim rA lA rB lB -> is_hf (h_state (r_h rA)) = false -> is_hv (h_state (r_h rA)) = false ->
  l_body lA = None -> l_body lB = None -> rA = rB /\ lA = lB.
Proof.
  intros [H1 H2 H3 HA HB H4 H5] F V BA BB.
  destruct HA as [_ _ FA VA _ _], HB as [_ _ FB VB _ _]. rewrite <- H1 in *. rewrite F in *. rewrite V in *.
  destruct lA as [dA fA vA bA eA], lB as [dB fB vB bB eB]; cbn [l_data l_field l_value l_body l_re] in *.
  destruct fA, vA, fB, vB; try discriminate. subst. unfold eff in H4; cbn in H4. auto.
Qed.

Lemma after_sim_refl r res :
  match after r res with
  | OGo r' l' => JOk (r_h r') l' -> exists r2 l2, after r res = OGo r2 l2 /\ Sim r' l' r2 l2
  | ORet r' er => exists r2, after r res = ORet r2 er /\ RR r' r2
  | OAssert => True
  end.
Proof.
  destruct (after r res) as [r' l'|r' er|]; auto.
  - intros HJ. exists r', l'. split; auto. constructor; auto. exists []. cbn. now rewrite !app_nil_r.
  - exists r'. split; auto using RR_refl.
Qed.

Definition addfield (c : bytes) (r : rparser) : rparser :=
  mkRP (r_h r) (r_field r ++ c) (r_value r) (r_lwv r) (r_parsing r) (r_headers r) (r_content r) (r_log r).
Definition addvalue (c : bytes) (r : rparser) : rparser :=
  mkRP (r_h r) (r_field r) (r_value r ++ c) (r_lwv r) (r_parsing r) (r_headers r) (r_content r) (r_log r).
Lemma field_app h a c r : on_cb (CbField (a ++ c)) (rset_h h r) = addfield c (rset_h h (on_cb (CbField a) r)).
Proof. cbn. unfold pushHeader, addfield. rsimp. destruct (r_lwv r); rsimp; now rewrite ?app_assoc. Qed.
Lemma field_h h a r : on_cb (CbField a) (rset_h h r) = rset_h h (on_cb (CbField a) r).
Proof. cbn. unfold pushHeader. rsimp. destruct (r_lwv r); reflexivity. Qed.
Lemma value_app h a c r : on_cb (CbValue (a ++ c)) (rset_h h r) = addvalue c (rset_h h (on_cb (CbValue a) r)).
Proof. cbn. unfold addvalue. rsimp. now rewrite ?app_assoc. Qed.
Lemma value_h h a r : on_cb (CbValue a) (rset_h h r) = rset_h h (on_cb (CbValue a) r).
Proof. reflexivity. Qed.
Lemma body_nil r : on_cb (CbBody []) r = r.
Proof. destruct r. unfold on_cb, rlog. rsimp. cbn [map]. now rewrite !app_nil_r. Qed.
Lemma body_app h a c r : on_cb (CbBody (a ++ c)) (rset_h h r) = on_cb (CbBody c) (rset_h h (on_cb (CbBody a) r)).
Proof. unfold on_cb, rlog. rsimp. now rewrite map_app, !app_assoc. Qed.
Lemma body_h h a r : on_cb (CbBody a) (rset_h h r) = rset_h h (on_cb (CbBody a) r).
Proof. reflexivity. Qed.
Lemma field_field a c r : on_cb (CbField c) (on_cb (CbField a) r) = on_cb (CbField (a ++ c)) r.
Proof. cbn. unfold pushHeader. destruct (r_lwv r) eqn:E; rsimp; rewrite ?E; now rewrite ?app_assoc. Qed.
Lemma value_value a c r : on_cb (CbValue c) (on_cb (CbValue a) r) = on_cb (CbValue (a ++ c)) r.
Proof. cbn. now rewrite ?app_assoc. Qed.

Lemma RR_err rA lA rB lB h : Sim rA lA rB lB -> h_errno h <> HPE_OK -> h_errno h <> HPE_PAUSED ->
  RR (rset_h h rA) (rset_h h rB).
Proof.
  intros S N1 N2. unfold RR; rsimp. repeat split; auto.
  - pose proof (f_equal r_parsing (sm_eff _ _ _ _ S)) as E. now rewrite !eff_parsing in E.
  - intros [?|?]; congruence.
  - destruct (sm_more _ _ _ _ S) as (x & _ & A & B). eauto.
Qed.

Definition simout (a b : outcome) : Prop :=
  match a, b with
  | OGo rA lA, OGo rB lB => Sim rA lA rB lB
  | ORet rA eA, ORet rB eB => eA = eB /\ RR rA rB
  | _, _ => False
  end.

Lemma nomore r : exists x, [] = x ++ [] /\ r_content r = r_content r ++ x /\ r_log r = r_log r ++ map RByte x.
Proof. exists []. cbn. now rewrite !app_nil_r. Qed.

Lemma sim_same r l : JOk (r_h r) l -> Sim r l r l.
Proof. intros HJ. constructor; auto. exists []. cbn. now rewrite !app_nil_r. Qed.

Lemma jok_nore h l : JOk h l -> re_state (h_state h) = false -> l_re l = false.
Proof. intros HJ R. destruct (l_re l) eqn:E; auto. destruct (jo_re _ _ HJ E). congruence. Qed.

Lemma sim_field rA lA rB lB : Sim rA lA rB lB -> l_data lA <> [] -> h_state (r_h rA) = s_header_field ->
  simout (mstep rA lA) (mstep rB lB).
Proof.
  intros S D St.
  pose proof (mstep_inv _ _ (sm_A _ _ _ _ S) D) as IA.
  assert (DB : l_data lB <> []) by (now rewrite <- (sm_data _ _ _ _ S)).
  pose proof (mstep_inv _ _ (sm_B _ _ _ _ S) DB) as IB.
  pose proof (fun h => RR_err _ _ _ _ h S) as E.
  destruct S as [Hh Hd Hr HA HB He Hm].
  pose proof (jok_nore _ _ HA) as RA. rewrite St in RA. specialize (RA eq_refl).
  destruct lA as [dA fA vA bA eA], lB as [dB fB vB bB eB]; cbn [l_data l_field l_value l_body l_re] in *. subst dB eB eA.
  destruct dA as [|ch d]; [congruence|].
  pose proof (jo_f _ _ HA) as F1. pose proof (jo_v _ _ HA) as V1. pose proof (jo_b _ _ HA) as B1.
  pose proof (jo_f _ _ HB) as F2. pose proof (jo_v _ _ HB) as V2. pose proof (jo_b _ _ HB) as B2.
  rewrite <- Hh in *. rewrite St in *. cbn [is_hf is_hv body_state l_field l_value l_body] in *.
  destruct fA as [a|]; [|discriminate]. destruct vA; [discriminate|].
  destruct bA; [cbn in B1; specialize (B1 eq_refl); discriminate|].
  destruct fB as [b|]; [|discriminate]. destruct vB; [discriminate|].
  destruct bB; [cbn in B2; specialize (B2 eq_refl); discriminate|].
  unfold eff in He; cbn [l_field l_value l_body] in He.
  revert IA IB. unfold mstep, jstep. rewrite <- Hh. cbn [l_data l_re]. rewrite St. cbn [parsing_header].
  match goal with |- context[if ?x then _ else _] => destruct x eqn:Ov end.
  { cbn. intros _ _. split; auto. apply E; discriminate. }
  unfold jbyte; hsimp; rewrite St.
  destruct (TOKEN ch) as [c|].
  - destruct (field_step (h_hs (r_h rA)) (h_index (r_h rA)) c) as [[hs idx]|]; [|cbn; tauto].
    cbn [after brk advance l_data]. intros [IA _] [IB _].
    constructor; rsimp; auto.
    + unfold eff; cbn [l_field l_value l_body moved option_map]. rewrite !field_app. now rewrite He.
  - repeat match goal with |- context[if ?x then _ else _] => destruct x eqn:? end;
      unfold data_field; cbn [l_field after].
    all: try (intros _ _; cbn; split; auto; apply E; discriminate).
    all: rewrite !on_cb_h by discriminate; rsimp; hsimp; rewrite (jo_errno _ _ HA); cbn [is_ok].
    all: rewrite !field_h, He; intros [IA _] [IB _]; apply sim_same; exact IA.
Qed.

Lemma sim_value rA lA rB lB : Sim rA lA rB lB -> l_data lA <> [] -> h_state (r_h rA) = s_header_value ->
  simout (mstep rA lA) (mstep rB lB).
Proof.
  intros S D St.
  pose proof (mstep_inv _ _ (sm_A _ _ _ _ S) D) as IA.
  assert (DB : l_data lB <> []) by (now rewrite <- (sm_data _ _ _ _ S)).
  pose proof (mstep_inv _ _ (sm_B _ _ _ _ S) DB) as IB.
  pose proof (fun h => RR_err _ _ _ _ h S) as E.
  destruct S as [Hh Hd Hr HA HB He Hm].
  pose proof (jok_nore _ _ HA) as RA. rewrite St in RA. specialize (RA eq_refl).
  destruct lA as [dA fA vA bA eA], lB as [dB fB vB bB eB]; cbn [l_data l_field l_value l_body l_re] in *. subst dB eB eA.
  destruct dA as [|ch d]; [congruence|].
  pose proof (jo_f _ _ HA) as F1. pose proof (jo_v _ _ HA) as V1. pose proof (jo_b _ _ HA) as B1.
  pose proof (jo_f _ _ HB) as F2. pose proof (jo_v _ _ HB) as V2. pose proof (jo_b _ _ HB) as B2.
  rewrite <- Hh in *. rewrite St in *. cbn [is_hf is_hv body_state l_field l_value l_body] in *.
  destruct vA as [a|]; [|discriminate]. destruct fA; [discriminate|].
  destruct bA; [cbn in B1; specialize (B1 eq_refl); discriminate|].
  destruct vB as [b|]; [|discriminate]. destruct fB; [discriminate|].
  destruct bB; [cbn in B2; specialize (B2 eq_refl); discriminate|].
  unfold eff in He; cbn [l_field l_value l_body] in He.
  revert IA IB. unfold mstep, jstep. rewrite <- Hh. cbn [l_data l_re]. rewrite St. cbn [parsing_header].
  match goal with |- context[if ?x then _ else _] => destruct x eqn:Ov end.
  { cbn. intros _ _. split; auto. apply E; discriminate. }
  unfold jbyte; hsimp; rewrite St.
  destruct (ceq ch CR); [|destruct (ceq ch LF)].
  - unfold data_value; cbn [l_value after].
    rewrite !on_cb_h by discriminate; rsimp; hsimp; rewrite (jo_errno _ _ HA); cbn [is_ok].
    rewrite !value_h, He; intros [IA _] [IB _]; apply sim_same; exact IA.
  - cbn [l_value after].
    rewrite !on_cb_h by discriminate; rsimp; hsimp; rewrite (jo_errno _ _ HA); cbn [is_ok].
    rewrite !value_h, He; intros [IA _] [IB _]; apply sim_same; exact IA.
  - destruct (value_step ch _) as [h1| |]; [| |cbn; tauto].
    + cbn [after brk advance l_data]. intros [IA _] [IB _].
      constructor; rsimp; auto.
      unfold eff; cbn [l_field l_value l_body moved option_map]. rewrite !value_app. now rewrite He.
    + cbn. intros _ _. split; auto. apply E; discriminate.
Qed.

Lemma eff_body r d b re : eff r (mkL d None None b re) = on_cb (CbBody (pend b)) r.
Proof. unfold eff; cbn [l_field l_value l_body pend]. destruct b; auto. now rewrite body_nil. Qed.
Lemma pend_app b x : match b with None => x | Some y => y ++ x end = pend b ++ x.
Proof. destruct b; reflexivity. Qed.

Lemma sim_body rA lA rB lB : Sim rA lA rB lB -> l_data lA <> [] -> body_state (h_state (r_h rA)) = true ->
  simout (mstep rA lA) (mstep rB lB).
Proof.
  intros S D St.
  pose proof (mstep_inv _ _ (sm_A _ _ _ _ S) D) as IA.
  assert (DB : l_data lB <> []) by (now rewrite <- (sm_data _ _ _ _ S)).
  pose proof (mstep_inv _ _ (sm_B _ _ _ _ S) DB) as IB.
  pose proof (fun h => RR_err _ _ _ _ h S) as E.
  destruct S as [Hh Hd Hr HA HB He Hm].
  pose proof (jok_nore _ _ HA) as RA.
  destruct lA as [dA fA vA bA eA], lB as [dB fB vB bB eB]; cbn [l_data l_field l_value l_body l_re] in *. subst dB eB.
  destruct dA as [|ch d]; [congruence|].
  pose proof (jo_f _ _ HA) as F1. pose proof (jo_v _ _ HA) as V1.
  pose proof (jo_f _ _ HB) as F2. pose proof (jo_v _ _ HB) as V2.
  rewrite <- Hh in *. cbn [l_field l_value l_body] in *.
  revert IA IB. unfold mstep, jstep. rewrite <- Hh. cbn [l_data l_re].
  destruct (h_state (r_h rA)) eqn:Q; try discriminate; specialize (RA eq_refl); subst eA; cbn [is_hf is_hv parsing_header] in *;
  destruct vA, fA, vB, fB; try discriminate; rewrite !eff_body in He; unfold jbyte; rewrite Q; cbn [l_data l_field l_value l_body l_re];
  rewrite ?pend_app.
  - (* s_chunk_data *)
    match goal with |- context[if ?x then _ else _] => destruct x eqn:Ov end; [cbn; tauto|].
    set (k := Z.min _ _). set (h1 := if h_cl _ =? 0 then _ else _). cbn [after]. intros [IA _] [IB _].
    constructor; rsimp; auto.
    + rewrite !eff_body. cbn [pend]. rewrite !body_app. now rewrite He.
    + cbn [l_body pend]. destruct Hm as (x & A & B & C). exists x. rewrite A. rewrite <- app_assoc. auto.
  - match goal with |- context[if ?x then _ else _] => destruct x eqn:Ov end; [cbn; tauto|].
    destruct (ceq ch CR).
    + unfold data_body; cbn [l_body].
      assert (W : forall r b h, h_errno h = HPE_OK -> after r (match b with
          | Some b0 => Call (CbBody b0) h (advance (no_body (mkL (ch :: d) None None b false))) (tl (ch :: d))
          | None => brk h (mkL (ch :: d) None None b false) end)
          = OGo (on_cb (CbBody (pend b)) (rset_h h r)) (mkL d None None None false)).
      { intros r b h Hok. destruct b; cbn [after brk pend].
        - rewrite !on_cb_h by discriminate; rsimp. rewrite Hok. reflexivity.
        - rewrite body_nil. reflexivity. }
      rewrite !W by (hsimp; apply (jo_errno _ _ HA)). rewrite !body_h, He. intros [IA _] _. apply sim_same. exact IA.
    + cbn. intros _ _. split; auto. apply E; discriminate.
  - match goal with |- context[if ?x then _ else _] => destruct x eqn:Ov end; [cbn; tauto|].
    set (k := Z.min _ _).
    match goal with |- context[if ?x then _ else _] => destruct x eqn:Oc end.
    + cbn [after]. rewrite !on_cb_h by discriminate; rsimp; hsimp. rewrite (jo_errno _ _ HA); cbn [is_ok].
      rewrite !body_app, He. intros [IA _] _. apply sim_same. exact IA.
    + cbn [after]. intros [IA _] [IB _].
      constructor; rsimp; auto.
      * rewrite !eff_body. cbn [pend]. rewrite !body_app. now rewrite He.
      * cbn [l_body pend]. destruct Hm as (x & A & B & C). exists x. rewrite A. rewrite <- app_assoc. auto.
  - cbn [after]. intros [IA _] [IB _].
    constructor; rsimp; auto.
    + rewrite !eff_body. cbn [pend]. rewrite !body_app. now rewrite He.
    + cbn [l_body pend]. destruct Hm as (x & A & B & C). exists x. rewrite A. rewrite <- app_assoc. auto.
Qed.

Lemma sim_step rA lA rB lB : Sim rA lA rB lB -> l_data lA <> [] -> simout (mstep rA lA) (mstep rB lB).
Proof.
  intros S D.
  destruct (is_hf (h_state (r_h rA))) eqn:F.
  { apply sim_field; auto. destruct (h_state (r_h rA)); try discriminate; auto. }
  destruct (is_hv (h_state (r_h rA))) eqn:V.
  { apply sim_value; auto. destruct (h_state (r_h rA)); try discriminate; auto. }
  destruct (body_state (h_state (r_h rA))) eqn:B; [now apply sim_body|].
  pose proof (sm_h _ _ _ _ S) as Hh.
  pose proof (mstep_inv _ _ (sm_A _ _ _ _ S) D) as IA.
  destruct (sim_plain _ _ _ _ S F V) as [-> ->].
  - destruct (l_body lA) eqn:E; auto. pose proof (jo_b _ _ (sm_A _ _ _ _ S)) as Q. rewrite E in Q. specialize (Q eq_refl). congruence.
  - destruct (l_body lB) eqn:E; auto. pose proof (jo_b _ _ (sm_B _ _ _ _ S)) as Q. rewrite E in Q. specialize (Q eq_refl).
    rewrite <- Hh in Q. congruence.
  - destruct (mstep rB lB); cbn; auto; [apply sim_same; tauto | split; auto using RR_refl].
Qed.

Lemma sim_run : forall n rA lA rB lB, (mu (r_h rA) lA <= n)%nat -> Sim rA lA rB lB ->
  exists a b er, J rA lA = Some (a, er) /\ J rB lB = Some (b, er) /\ RR a b.
Proof.
  induction n as [n IH] using lt_wf_ind; intros rA lA rB lB Hn S.
  destruct (list_eq_dec ascii_dec (l_data lA) []) as [D|D].
  - exists (eff rA lA), (eff rB lB), []. rewrite !J_end; eauto using sm_A, sm_B. 2: now rewrite <- (sm_data _ _ _ _ S).
    split; [|split]; auto. rewrite (sm_eff _ _ _ _ S). apply RR_refl.
  - assert (DB : l_data lB <> []) by (now rewrite <- (sm_data _ _ _ _ S)).
    rewrite !J_step; eauto using sm_A, sm_B. pose proof (sim_step _ _ _ _ S D) as Q.
    pose proof (mstep_inv _ _ (sm_A _ _ _ _ S) D) as IA.
    destruct (mstep rA lA) as [a l|a er|], (mstep rB lB) as [b l2|b er2|]; cbn in Q; try contradiction.
    + destruct IA as [_ IA]. eapply (IH (mu (r_h a) l)); [lia|auto|exact Q].
    + destruct Q as [<- Q]. eauto 10.
Qed.

(** ** A run on the beginning of the data *)
Definition app2 (l : locals) (d2 : bytes) : locals := mkL (l_data l ++ d2) (l_field l) (l_value l) (l_body l) (l_re l).
Definition appout (d2 : bytes) (o : outcome) : outcome :=
  match o with OGo r l => OGo r (app2 l d2) | ORet r er => ORet r (er ++ d2) | OAssert => OAssert end.
(** the data ends inside a block of content *)
Definition cutting (h : hparser) (l : locals) : bool :=
  match h_state h with
  | s_body_identity | s_chunk_data => blen (l_data l) <? h_cl h
  | s_body_identity_eof => true
  | _ => false
  end.

Lemma app2_jok h l d2 : l_data l <> [] -> JOk h l -> JOk h (app2 l d2).
Proof.
  intros D [A B C E F G]. constructor; cbn [l_data l_field l_value l_body l_re app2]; auto.
  intros H. split; [|tauto]. destruct (l_data l); [congruence|discriminate].
Qed.

Lemma mstep_app r l d2 : JOk (r_h r) l -> l_data l <> [] -> cutting (r_h r) l = false ->
  mstep r (app2 l d2) = appout d2 (mstep r l).
Proof.
  intros HJ D C. pose proof (jo_errno _ _ HJ) as Eo.
  destruct l as [d f v b re]; cbn [l_data l_field l_value l_body l_re app2] in *.
  destruct d as [|ch d]; [congruence|]. unfold mstep, jstep. cbn [l_data l_re app].
  assert (G : forall h, h_state h = h_state (r_h r) -> h_cl h = h_cl (r_h r) -> h_errno h = HPE_OK ->
    after r (jbyte ch h (mkL (ch :: d ++ d2) f v b re)) = appout d2 (after r (jbyte ch h (mkL (ch :: d) f v b re)))).
  { intros h Hs Hc He. unfold jbyte. cbn [l_data l_field l_value l_body l_re].
    unfold cutting in C. cbn [l_data] in C.
    rewrite Hs. destruct (h_state (r_h r)) eqn:S; try discriminate C;
    repeat match goal with
    | |- context[match TOKEN ?x with _ => _ end] => destruct (TOKEN x)
    | |- context[match field_step ?x ?y ?z with _ => _ end] => destruct (field_step x y z) as [[? ?]|]
    | |- context[match value_first ?x ?y with _ => _ end] => destruct (value_first x y)
    | |- context[match value_step ?x ?y with _ => _ end] => destruct (value_step x y)
    end;
    try reflexivity;
    try (repeat match goal with |- context[if ?x then _ else _] => destruct x end; reflexivity).
    all: try (unfold data_field, data_value, data_body, notify; cbn [l_data l_field l_value l_body l_re mark_value];
       destruct f, v, b; cbn [mark];
       repeat match goal with |- context[if ?x then _ else _] => destruct x eqn:? end; cbn [after];
       rewrite ?on_cb_h by discriminate; cbn [r_h rset_h h_errno hset_state hset_hs hset_index hset_nread]; 
       rewrite ?He; try reflexivity; fail).
    all: try (repeat match goal with |- context[if ?x then _ else _] => destruct x eqn:? end; cbn [after]; try reflexivity;
       cbn; unfold hpause; hsimp; rewrite ?He; reflexivity).
    all: try (destruct (ceq ch LF); [|reflexivity]; destruct (f_trailing h); cbn [after notify];
       [cbn; unfold hpause; hsimp; rewrite ?He; reflexivity
       |rewrite ?on_cb_h by discriminate; cbn [r_h rset_h h_errno hset_state hset_upgr]; rewrite He; reflexivity]; fail).
    all: rewrite Hc; apply Z.ltb_ge in C;
      replace (Z.min (h_cl (r_h r)) (blen (ch :: d ++ d2))) with (h_cl (r_h r))
        by (change (ch :: d ++ d2) with ((ch :: d) ++ d2); rewrite blen_app; pose proof (blen_nonneg d2); lia);
      replace (Z.min (h_cl (r_h r)) (blen (ch :: d))) with (h_cl (r_h r)) by lia;
      assert (Hcl : (Z.to_nat (h_cl (r_h r)) <= length (ch :: d))%nat) by (unfold blen in C; lia);
      assert (Hf : firstn (Z.to_nat (h_cl (r_h r))) (ch :: d ++ d2) = firstn (Z.to_nat (h_cl (r_h r))) (ch :: d))
        by (change (ch :: d ++ d2) with ((ch :: d) ++ d2); rewrite firstn_app;
            replace (Z.to_nat (h_cl (r_h r)) - length (ch :: d))%nat with 0%nat by lia; cbn [firstn]; apply app_nil_r);
      assert (Hk : forall k, (k <= length (ch :: d))%nat -> skipn k (ch :: d ++ d2) = skipn k (ch :: d) ++ d2)
        by (intros k Hk; change (ch :: d ++ d2) with ((ch :: d) ++ d2); rewrite skipn_app;
            replace (k - length (ch :: d))%nat with 0%nat by lia; reflexivity);
      rewrite Hf, !Hk by lia;
      repeat match goal with |- context[if ?x then _ else _] => destruct x eqn:? end; cbn [after];
      rewrite ?on_cb_h by discriminate; cbn [r_h rset_h h_errno hset_state hset_hs hset_index hset_nread hset_cl];
      rewrite ?He; reflexivity. }
  destruct re; [apply G; auto|].
  destruct (parsing_header (h_state (r_h r))); [|apply G; auto].
  destruct (HTTP_MAX_HEADER_SIZE <? _); [reflexivity|]. apply G; hsimp; auto.
Qed.

Lemma jstart_ok d h : HOk h -> h_errno h = HPE_OK -> JOk h (jstart d h).
Proof.
  intros A B. constructor; unfold jstart; cbn [l_data l_field l_value l_body l_re]; auto; try discriminate;
  destruct (h_state h); reflexivity.
Qed.

Lemma firstn_app_over {A} (x y : list A) n : firstn (length x + n) (x ++ y) = x ++ firstn n y.
Proof. rewrite firstn_app. replace (length x + n - length x)%nat with n by lia. rewrite firstn_all2 by lia. reflexivity. Qed.
Lemma skipn_app_over {A} (x y : list A) n : skipn (length x + n) (x ++ y) = skipn n y.
Proof. rewrite skipn_app. replace (length x + n - length x)%nat with n by lia. rewrite skipn_all2 by lia. reflexivity. Qed.

Definition cut_h (h : hparser) (n : Z) : hparser :=
  match h_state h with s_body_identity_eof => h | _ => hset_cl (h_cl h - n) h end.

Lemma cut_jok h d b : HOk h -> h_errno h = HPE_OK -> cutting h (mkL d None None b false) = true ->
  HOk (cut_h h (blen d)) /\ h_errno (cut_h h (blen d)) = HPE_OK /\ h_state (cut_h h (blen d)) = h_state h.
Proof.
  unfold cutting, cut_h, HOk. cbn [l_data]. intros [A B] E C. pose proof (blen_nonneg d).
  destruct (h_state h) eqn:S; try discriminate; hsimp; rewrite ?S; auto; apply Z.ltb_lt in C;
  repeat split; try tauto; lia.
Qed.

Lemma cut_first r l : JOk (r_h r) l -> l_data l <> [] -> cutting (r_h r) l = true ->
  l_field l = None /\ l_value l = None /\ l_re l = false /\
  mstep r l = OGo (rset_h (cut_h (r_h r) (blen (l_data l))) r) (mkL [] None None (Some (pend (l_body l) ++ l_data l)) false).
Proof.
  intros HJ D C. destruct l as [d f v b re]; cbn [l_data l_field l_value l_body l_re] in *.
  pose proof (jok_nore _ _ HJ) as R. pose proof (jo_f _ _ HJ) as F. pose proof (jo_v _ _ HJ) as V. cbn [l_field l_value l_re] in *.
  destruct HJ as [[Hc Hh] He _ _ _ _].
  destruct d as [|ch d]; [congruence|].
  unfold cutting in C. unfold mstep, jstep, cut_h. cbn [l_data l_re].
  destruct (h_state (r_h r)) eqn:S; try discriminate; cbn [is_hf is_hv re_state parsing_header] in *;
    destruct f, v; try discriminate; rewrite R by reflexivity; unfold jbyte; rewrite S; cbn [l_data l_field l_value l_body];
    rewrite ?pend_app; cbn [l_data] in C; try apply Z.ltb_lt in C.
  - replace (Z.min (h_cl (r_h r)) (blen (ch :: d))) with (blen (ch :: d)) by lia.
    replace (Z.to_nat (blen (ch :: d))) with (length (ch :: d)) by (unfold blen; lia). rewrite firstn_all, skipn_all.
    destruct Hh as [-> Hh]. hsimp. replace (h_cl (r_h r) =? 0) with false by lia.
    replace (h_cl (r_h r) =? ULLONG_MAX) with false by lia. replace (h_cl (r_h r) - blen (ch :: d) =? 0) with false by lia.
    cbn [negb orb after]. auto.
  - replace (Z.min (h_cl (r_h r)) (blen (ch :: d))) with (blen (ch :: d)) by lia.
    replace (Z.to_nat (blen (ch :: d))) with (length (ch :: d)) by (unfold blen; lia). rewrite firstn_all, skipn_all.
    hsimp. replace (h_cl (r_h r) =? 0) with false by lia.
    replace (h_cl (r_h r) =? ULLONG_MAX) with false by lia. replace (h_cl (r_h r) - blen (ch :: d) =? 0) with false by lia.
    cbn [negb orb after]. auto.
  - cbn [after]. auto.
Qed.

Lemma cut_sim r l d2 : JOk (r_h r) l -> l_data l <> [] -> cutting (r_h r) l = true -> d2 <> [] ->
  let r1 := on_cb (CbBody (pend (l_body l) ++ l_data l)) (rset_h (cut_h (r_h r) (blen (l_data l))) r) in
  simout (mstep r (app2 l d2)) (mstep r1 (jstart d2 (r_h r1))).
Proof.
  intros HJ D C D2 r1.
  destruct (cut_first _ _ HJ D C) as (F & V & R & _).
  assert (IA := mstep_inv r (app2 l d2) (app2_jok _ _ _ D HJ)).
  specialize (IA ltac:(destruct (l_data l) eqn:Q; [congruence|cbn; rewrite Q; discriminate])).
  destruct l as [d f v b re]; cbn [l_data l_field l_value l_body l_re app2] in *. subst f v re.
  destruct (cut_jok (r_h r) d b (jo_h _ _ HJ) (jo_errno _ _ HJ) C) as (K1 & K2 & K3).
  assert (H1 : r_h r1 = cut_h (r_h r) (blen d)) by (subst r1; rewrite on_cb_h by discriminate; reflexivity).
  assert (IB := mstep_inv r1 (jstart d2 (r_h r1))). rewrite H1 in IB. specialize (IB (jstart_ok _ _ K1 K2)). specialize (IB ltac:(exact D2)).
  rewrite H1. revert IA IB. unfold mstep. rewrite H1. unfold jstart. rewrite K3.
  pose proof (jo_errno _ _ HJ) as He. pose proof (jo_h _ _ HJ) as [Hc Hh]. clear HJ.
  destruct d as [|ch d]; [congruence|]. destruct d2 as [|c2 d2]; [congruence|].
  change (app2 (mkL (ch :: d) None None b false) (c2 :: d2)) with (mkL ((ch :: d) ++ c2 :: d2) None None b false).
  unfold cutting in C. unfold jstep. cbn [l_data l_re app]. rewrite K3.
  unfold cut_h in *.
  destruct (h_state (r_h r)) eqn:S; try discriminate; cbn [parsing_header]; unfold jbyte; hsimp; rewrite S; cbn [l_data l_field l_value l_body];
  rewrite ?pend_app; cbn [l_data] in C; try apply Z.ltb_lt in C;
  change (ch :: d ++ c2 :: d2) with ((ch :: d) ++ c2 :: d2); rewrite ?blen_app.
  - set (n := blen (ch :: d)) in *. set (k2 := Z.min (h_cl (r_h r) - n) (blen (c2 :: d2))).
    assert (Hk2 : 1 <= k2) by (subst k2; rewrite blen_cons; pose proof (blen_nonneg d2); lia).
    assert (Hk2' : k2 <= h_cl (r_h r) - n) by (subst k2; lia).
    assert (0 <= n) by apply blen_nonneg.
    replace (Z.min (h_cl (r_h r)) (n + blen (c2 :: d2))) with (n + k2) by (subst k2; lia).
    replace (Z.to_nat (n + k2)) with (length (ch :: d) + Z.to_nat k2)%nat by (subst n; unfold blen; lia).
    rewrite firstn_app_over, skipn_app_over. clearbody k2.
    destruct Hh as [-> Hh]. replace (h_cl (r_h r) =? 0) with false by lia.
    replace (h_cl (r_h r) =? ULLONG_MAX) with false by lia.
    replace (h_cl (r_h r) - n =? 0) with false by lia.
    replace (h_cl (r_h r) - n =? ULLONG_MAX) with false by lia.
    replace (h_cl (r_h r) - n - k2) with (h_cl (r_h r) - (n + k2)) by lia.
    cbn [negb orb after].
    intros [IA _] [IB _]. subst r1.
    constructor; rsimp; auto.
    + rewrite !eff_body. cbn [pend]. rewrite app_assoc, body_app. destruct (_ =? 0); reflexivity.
    + exists (pend b ++ ch :: d). cbn [l_body pend]. rewrite <- app_assoc. split; auto.
  - set (n := blen (ch :: d)) in *. set (k2 := Z.min (h_cl (r_h r) - n) (blen (c2 :: d2))).
    assert (Hk2 : 1 <= k2) by (subst k2; rewrite blen_cons; pose proof (blen_nonneg d2); lia).
    assert (Hk2' : k2 <= h_cl (r_h r) - n) by (subst k2; lia).
    assert (0 <= n) by apply blen_nonneg.
    replace (Z.min (h_cl (r_h r)) (n + blen (c2 :: d2))) with (n + k2) by (subst k2; lia).
    replace (Z.to_nat (n + k2 - 1)) with (length (ch :: d) + Z.to_nat (k2 - 1))%nat by (subst n; unfold blen; lia).
    replace (Z.to_nat (n + k2)) with (length (ch :: d) + Z.to_nat k2)%nat by (subst n; unfold blen; lia).
    rewrite firstn_app_over, !skipn_app_over. clearbody k2.
    replace (h_cl (r_h r) =? 0) with false by lia.
    replace (h_cl (r_h r) =? ULLONG_MAX) with false by lia.
    replace (h_cl (r_h r) - n =? 0) with false by lia.
    replace (h_cl (r_h r) - n =? ULLONG_MAX) with false by lia.
    replace (h_cl (r_h r) - n - k2) with (h_cl (r_h r) - (n + k2)) by lia.
    cbn [negb orb].
    destruct (h_cl (r_h r) - (n + k2) =? 0).
    + cbn [after]. rewrite !on_cb_h by discriminate; rsimp; hsimp. rewrite He. cbn [is_ok].
      intros [IA _] [IB _]. subst r1. rewrite app_assoc, body_app.
      match goal with |- simout (OGo ?x ?y) (OGo ?u ?w) => assert (x = u) as -> by reflexivity end. apply sim_same. exact IB.
    + cbn [after]. intros [IA _] [IB _]. subst r1.
      constructor; rsimp; auto.
      * rewrite !eff_body. cbn [pend]. rewrite app_assoc, body_app. reflexivity.
      * exists (pend b ++ ch :: d). cbn [l_body pend]. rewrite <- app_assoc. split; auto.
  - cbn [after]. intros [IA _] [IB _]. subst r1.
    constructor; rsimp; auto.
    + rewrite !eff_body. cbn [pend]. rewrite app_assoc, body_app. reflexivity.
    + exists (pend b ++ ch :: d). cbn [l_body pend]. rewrite <- app_assoc. split; auto.
Qed.

Lemma split_run : forall n r l d2, (mu (r_h r) l <= n)%nat -> JOk (r_h r) l -> d2 <> [] ->
  exists r1 er, J r l = Some (r1, er) /\
    (h_errno (r_h r1) = HPE_OK -> exists a b er2, J r (app2 l d2) = Some (a, er2) /\
        J r1 (jstart d2 (r_h r1)) = Some (b, er2) /\ RR a b) /\
    (h_errno (r_h r1) <> HPE_OK -> J r (app2 l d2) = Some (r1, er ++ d2)).
Proof.
  induction n as [n IH] using lt_wf_ind; intros r l d2 Hn HJ D2.
  destruct (list_eq_dec ascii_dec (l_data l) []) as [D|D].
  - exists (eff r l), []. rewrite J_end by auto. split; auto. rewrite eff_h.
    split; [|intros N; destruct (N (jo_errno _ _ HJ))]. intros _.
    eapply (sim_run _ r (app2 l d2) (eff r l) (jstart d2 (r_h r))); [reflexivity|].
    assert (R : l_re l = false) by (destruct (l_re l) eqn:Q; auto; destruct (jo_re _ _ HJ Q); congruence).
    assert (HJ2 : JOk (r_h r) (jstart d2 (r_h r))) by (apply jstart_ok; [apply (jo_h _ _ HJ)|apply (jo_errno _ _ HJ)]).
    constructor; rewrite ?eff_h; auto.
    + cbn. now rewrite D.
    + destruct HJ as [A B C E F G]. constructor; cbn [l_data l_field l_value l_body l_re app2]; auto. congruence.
    + pose proof (jo_f _ _ HJ) as F. pose proof (jo_v _ _ HJ) as V. pose proof (jo_b _ _ HJ) as B.
      unfold jstart, eff; cbn [l_data l_field l_value l_body l_re app2].
      destruct (h_state (r_h r)) eqn:S; cbn in F, V; destruct (l_field l), (l_value l); try discriminate;
      (destruct (l_body l); [try (specialize (B eq_refl); discriminate)|]); auto.
      * rewrite field_field. now rewrite app_nil_r.
      * rewrite value_value. now rewrite app_nil_r.
    + exists (pend (l_body l)). cbn [l_body app2 jstart pend]. rewrite app_nil_r. split; auto.
      unfold eff. destruct (l_field l), (l_value l), (l_body l); cbn; unfold pushHeader; destruct (r_lwv r); rsimp; now rewrite ?app_nil_r.
  - assert (DA : l_data (app2 l d2) <> []) by (cbn; destruct (l_data l); [congruence|discriminate]).
    pose proof (app2_jok _ _ d2 D HJ) as HJA.
    destruct (cutting (r_h r) l) eqn:C.
    + destruct (cut_first _ _ HJ D C) as (F & V & R & M).
      assert (K := mstep_inv _ _ HJ D). rewrite M in K. destruct K as [K _].
      set (h1 := cut_h (r_h r) (blen (l_data l))) in *.
      set (r1 := on_cb (CbBody (pend (l_body l) ++ l_data l)) (rset_h h1 r)) in *.
      assert (H1 : r_h r1 = h1) by (subst r1; rewrite on_cb_h by discriminate; reflexivity).
      exists r1, []. rewrite J_step by auto. rewrite M. rewrite J_end by auto.
      split; [subst r1; unfold eff; cbn [l_field l_value l_body]; reflexivity|].
      split; [|intros N; rewrite H1 in N; rsimp in *; destruct (N (jo_errno _ _ K))]. intros _.
      assert (K2 : JOk (r_h r1) (jstart d2 (r_h r1))).
      { rewrite H1. apply jstart_ok; [apply (jo_h _ _ K)|apply (jo_errno _ _ K)]. }
      rewrite (J_step r (app2 l d2)), (J_step r1 (jstart d2 (r_h r1))) by auto.
      pose proof (cut_sim r l d2 HJ D C D2) as Q. cbn zeta in Q. fold h1 in Q. fold r1 in Q.
      destruct (mstep r (app2 l d2)) as [a la|a ea|], (mstep r1 (jstart d2 (r_h r1))) as [b lb|b eb|]; cbn in Q; try contradiction.
      * eapply sim_run; [reflexivity|exact Q].
      * destruct Q as [<- Q]. eauto 10.
    + rewrite J_step by auto. rewrite (J_step r (app2 l d2)) by auto. rewrite mstep_app by auto.
      pose proof (mstep_inv _ _ HJ D) as I. destruct (mstep r l) as [r' l'|r' er|]; [| |destruct I]; cbn [appout].
      * destruct I as [I1 I2]. apply (IH (mu (r_h r') l')); auto; lia.
      * exists r', er. split; auto. split; [tauto|auto].
Qed.
