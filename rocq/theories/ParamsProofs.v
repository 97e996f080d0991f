(** Proofs about request parameters (C25, C26). *)
From Verif Require Import Bytes ByteHelpers Params TextSpec HelpersProofs.

Lemma unhex2_hexbyte_any a b : unhex2 a b = hexbyte a b.
Proof.
  unfold unhex2, hexbyte. f_equal. f_equal.
  assert (U : forall c, unhex c = hexval c /\ (0 <= hexval c < 16)%Z).
  { intros c. assert (H : forallb (fun c => Z.eqb (unhex c) (hexval c) && Z.leb 0 (hexval c) && Z.ltb (hexval c) 16) all_bytes = true)
      by (vm_compute; reflexivity).
    pose proof (forall_bytes _ H c) as H1. cbv beta in H1. rewrite !andb_true_iff in H1.
    rewrite Z.eqb_eq, Z.leb_le, Z.ltb_lt in H1. tauto. }
  destruct (U a) as [-> Ha], (U b) as [-> Hb].
  assert (K : forallb (fun x => forallb (fun y => Z.eqb (Z.lor (Z.shiftl (Z.of_nat x) 4) (Z.of_nat y))
     (16 * Z.of_nat x + Z.of_nat y)) (seq 0 16)) (seq 0 16) = true) by (vm_compute; reflexivity).
  rewrite forallb_forall in K. specialize (K (Z.to_nat (hexval a)) ltac:(apply in_seq; lia)).
  cbv beta in K. rewrite forallb_forall in K. specialize (K (Z.to_nat (hexval b)) ltac:(apply in_seq; lia)).
  cbv beta in K. apply Z.eqb_eq in K. rewrite !Z2Nat.id in K by lia. exact K.
Qed.

Lemma pdec_any f : forall s, (length s <= f)%nat -> PDecodeAny s (pdec f s).
Proof.
  induction f as [|f IH]; intros s L.
  - destruct s; [constructor|cbn in L; lia].
  - destruct s as [|c s]; [constructor|]. cbn [pdec length] in *.
    destruct s as [|a [|b u]].
    + constructor; [right; cbn; lia|]. apply IH. cbn; lia.
    + constructor; [right; cbn; lia|]. apply IH. lia.
    + destruct (Ascii.eqb_spec c "%") as [->|N].
      * rewrite unhex2_hexbyte_any. constructor. apply IH. cbn [length] in L. lia.
      * constructor; auto. apply IH. lia.
Qed.

Lemma PDecodeAny_fun s t : PDecodeAny s t -> forall t', PDecodeAny s t' -> t = t'.
Proof.
  induction 1 as [|a b s t H IH|c s t C H IH]; intros t' H'.
  - now inversion H'.
  - inversion H' as [|a' b' s' u' D|c' s' u' C D]; subst.
    + f_equal. auto.
    + destruct C as [C|C]; [congruence|cbn in C; lia].
  - inversion H' as [|a' b' s' u' D|c' s' u' C' D]; subst.
    + destruct C as [C|C]; [congruence|cbn in C; lia].
    + f_equal. auto.
Qed.

Section Qt.
  Variable utf8 : bytes -> qstring.
  Variable fold : qstring -> qstring.

  (* the text of a percent-encoded piece; nothing for an empty piece *)
  Definition Text_of (b : bytes) (q : qstring) : Prop :=
    (b = [] /\ q = []) \/ (b <> [] /\ exists d, PDecodeAny b d /\ q = utf8 d).

  Definition ParamOf (piece : bytes) (p : param) : Prop :=
    exists k v, KeyValue piece k v /\ Text_of k (fst p) /\ Text_of v (snd p).

  Lemma percentDecode_ok b : exists q, percentDecode utf8 b = Some q /\ Text_of b q.
  Proof.
    destruct b as [|c b].
    - exists []. split; [reflexivity|left; auto].
    - unfold percentDecode. rewrite percentDecode_pdec. eexists. split; [reflexivity|].
      right. split; [discriminate|]. eexists. split; [apply pdec_any; reflexivity|reflexivity].
  Qed.

  Lemma find_byte_spec d s : let '(a, r) := find_byte d s in
    s = a ++ r /\ ~ In d a /\ (r = [] \/ exists t, r = d :: t).
  Proof.
    induction s as [|c s IH]; cbn [find_byte].
    - repeat split; auto.
    - destruct (Ascii.eqb_spec c d) as [->|N].
      + repeat split; eauto.
      + destruct (find_byte d s) as [a r]. destruct IH as (-> & NI & T). repeat split; auto.
        intros [E|I]; auto.
  Qed.

  Lemma param_of_ok piece : exists p, param_of utf8 piece = Some p /\ ParamOf piece p.
  Proof.
    unfold param_of. pose proof (find_byte_spec "=" piece) as F. destruct (find_byte "=" piece) as [k r].
    destruct F as (-> & NI & [->|(t & ->)]).
    - rewrite app_nil_r. destruct (percentDecode_ok k) as (q & E & T). rewrite E. eexists. split; [reflexivity|].
      exists k, []. split; [constructor; auto|]. cbn. split; auto. left; auto.
    - destruct (percentDecode_ok k) as (q & E & T). destruct (percentDecode_ok t) as (q2 & E2 & T2).
      rewrite E, E2. eexists. split; [reflexivity|]. exists k, t. split; [apply (KV_eq k t); auto|]. auto.
  Qed.

  Lemma parse_params_ok : forall f s, (length s <= f)%nat ->
    exists ps pieces, parse_params utf8 f s = Some ps /\ Pieces s pieces /\ Forall2 ParamOf pieces ps.
  Proof.
    induction f as [|f IH]; intros s L.
    - destruct s; [|cbn in L; lia]. exists [], []. repeat constructor.
    - destruct s as [|c s]; [exists [], []; repeat constructor|].
      cbn [parse_params]. pose proof (find_byte_spec "&" (c :: s)) as F.
      destruct (find_byte "&" (c :: s)) as [p r]. destruct F as (E & NI & R).
      destruct (param_of_ok p) as (q & Eq & Hq). rewrite Eq.
      destruct R as [->|(t & ->)].
      + cbn [tl]. rewrite app_nil_r in E. replace (parse_params utf8 f []) with (Some (@nil param)) by (destruct f; reflexivity).
        exists [q], [p]. rewrite E. repeat split; repeat constructor; auto. rewrite <- E. discriminate.
      + cbn [tl]. destruct (IH t) as (ps & pieces & E1 & E2 & E3).
        { apply (f_equal (@length ascii)) in E. rewrite app_length in E. cbn in *. lia. }
        rewrite E1. exists (q :: ps), (p :: pieces). rewrite E. repeat split; auto.
        apply (Pc_more p t pieces); auto.
  Qed.

  Lemma Pieces_ne s ps : Pieces s ps -> s <> [] -> ps <> [].
  Proof. intros H N. inversion H; congruence. Qed.

  (* a connection whose parameters were not modified yet *)
  Lemma requestParams_fresh q : exists ps pieces,
    requestParams utf8 (mkPS q []) = Some (mkPS q ps, ps) /\ Pieces q pieces /\ Forall2 ParamOf pieces ps.
  Proof.
    unfold requestParams. cbn [p_params p_query]. destruct q as [|c q].
    - exists [], []. repeat constructor.
    - destruct (parse_params_ok (length (c :: q)) (c :: q) ltac:(lia)) as (ps & pcs & E & P & F).
      rewrite E. eauto 10.
  Qed.

  Lemma requestParams_again q ps0 s ps : requestParams utf8 (mkPS q ps0) = Some (s, ps) ->
    requestParams utf8 s = Some (s, ps).
  Proof.
    unfold requestParams. cbn [p_params p_query]. destruct ps0 as [|p0 ps0].
    - destruct q as [|c q]; [intros [= <- <-]; reflexivity|].
      destruct (parse_params_ok (length (c :: q)) (c :: q) ltac:(lia)) as (ps' & pcs & E & P & F). rewrite E.
      intros [= <- <-]. cbn [p_params p_query]. destruct ps' as [|]; [|reflexivity].
      inversion F; subst. apply Pieces_ne in P; [contradiction|discriminate].
    - intros [= <- <-]. reflexivity.
  Qed.

  (** *** lookup and update *)
  Definition matches (name : qstring) (p : param) : Prop := fold (fst p) = fold name.
  Lemma qeq_iff a b : qeq fold a b = true <-> fold a = fold b.
  Proof. unfold qeq. destruct (list_eq_dec Z.eq_dec (fold a) (fold b)); split; congruence. Qed.

  Lemma lookup_first name pre p post : matches name p -> (forall x, In x pre -> ~ matches name x) ->
    lookup_param fold name (pre ++ p :: post) = snd p.
  Proof.
    intros M N. induction pre as [|[n v] pre IH]; destruct p as [n0 v0]; cbn [app lookup_param].
    - apply qeq_iff in M. cbn [fst] in M. now rewrite M.
    - destruct (qeq fold n name) eqn:Q.
      + apply qeq_iff in Q. exfalso. apply (N (n, v)); [now left|exact Q].
      + apply IH. intros x Hx. apply N. now right.
  Qed.
  Lemma lookup_none name ps : (forall x, In x ps -> ~ matches name x) -> lookup_param fold name ps = [].
  Proof.
    intros N. induction ps as [|[n v] ps IH]; cbn; auto. destruct (qeq fold n name) eqn:Q.
    - apply qeq_iff in Q. exfalso. apply (N (n, v)); [now left|exact Q].
    - apply IH. intros x Hx. apply N. now right.
  Qed.
  Lemma update_hit name v pre p post : matches name p -> (forall x, In x pre -> ~ matches name x) ->
    update_param fold name v (pre ++ p :: post) = pre ++ (name, v) :: post.
  Proof.
    intros M N. induction pre as [|[n w] pre IH]; destruct p as [n0 v0]; cbn [app update_param].
    - apply qeq_iff in M. cbn [fst] in M. now rewrite M.
    - destruct (qeq fold n name) eqn:Q.
      + apply qeq_iff in Q. exfalso. apply (N (n, w)); [now left|exact Q].
      + f_equal. apply IH. intros x Hx. apply N. now right.
  Qed.
  Lemma update_miss name v ps : (forall x, In x ps -> ~ matches name x) ->
    update_param fold name v ps = ps ++ [(name, v)].
  Proof.
    intros N. induction ps as [|[n w] ps IH]; cbn; auto. destruct (qeq fold n name) eqn:Q.
    - apply qeq_iff in Q. exfalso. apply (N (n, w)); [now left|exact Q].
    - f_equal. apply IH. intros x Hx. apply N. now right.
  Qed.
  Lemma first_match name ps : (forall x, In x ps -> ~ matches name x) \/
    exists pre p post, ps = pre ++ p :: post /\ matches name p /\ (forall x, In x pre -> ~ matches name x).
  Proof.
    induction ps as [|p ps IH]; [left; auto|]. destruct (qeq fold (fst p) name) eqn:Q.
    - right. exists [], p, ps. apply qeq_iff in Q. repeat split; auto.
    - destruct IH as [N|(pre & q & post & -> & M & N)].
      + left. intros x [<-|I]; auto. intros M. apply qeq_iff in M. congruence.
      + right. exists (p :: pre), q, post. repeat split; auto.
        intros x [<-|I]; auto. intros M'. apply qeq_iff in M'. congruence.
  Qed.
End Qt.
