(** Route patterns with the special characters '.', '*', '+' and '?' of regular expressions: specification and proofs. *)
From Verif Require Import Bytes Params Router RouterSpec RouterProofs.
Open Scope Z_scope.

(** one character: this one, or ('.') any; how often *)
Inductive onechar := This (z : Z) | Dot.
Inductive often := Once | AtMostOnce | AnyTimes | AtLeastOnce.
(** a pattern: characters, each possibly followed by '?', '*' or '+'; ":name"; "*name" *)
Inductive rtok := Ch (a : onechar) (q : often) | RParam (n : qstring) | RSplat (n : qstring).
Definition char_text (a : onechar) : Z := match a with This z => z | Dot => 46 end.
Definition often_text (q : often) : qstring := match q with Once => [] | AtMostOnce => [63] | AnyTimes => [42] | AtLeastOnce => [43] end.
(** its text, as given to addRoute *)
Fixpoint rtext (p : list rtok) : qstring :=
  match p with
  | [] => []
  | Ch a q :: t => char_text a :: often_text q ++ rtext t
  | RParam n :: t => 58 :: n ++ rtext t
  | RSplat n :: t => 42 :: n ++ rtext t
  end.
Definition is_char (a : onechar) (z : Z) : Prop := match a with This c => z = c | Dot => True end.
Definition so_often (q : often) (n : nat) : Prop :=
  match q with Once => n = 1%nat | AtMostOnce => (n <= 1)%nat | AnyTimes => True | AtLeastOnce => (1 <= n)%nat end.
Section S.
Variable uword : Z -> bool.
Notation is_word := (is_word uword).
Notation is_seg := (is_seg uword).
Notation marks := (marks uword).
Notation mat := (mat uword).
(** the paths a pattern denotes, with the values of its ":name" and "*name" *)
Inductive RDenotes : list rtok -> qstring -> list qstring -> Prop :=
| RD_nil : RDenotes [] [] []
| RD_char a q p v s vs : Forall (is_char a) v -> so_often q (length v) -> RDenotes p s vs -> RDenotes (Ch a q :: p) (v ++ s) vs
| RD_param n p v s vs : v <> [] -> Forall (segment_char uword) v -> RDenotes p s vs -> RDenotes (RParam n :: p) (v ++ s) (v :: vs)
| RD_splat n p v s vs : RDenotes p s vs -> RDenotes (RSplat n :: p) (v ++ s) (v :: vs).
Definition plain_one (a : onechar) : Prop := match a with This z => plain_char z | Dot => True end.
Definition rstarts_word (p : list rtok) : Prop := match p with Ch (This z) _ :: _ => is_word z = true | _ => False end.
(** the characters are not other special characters; names are words and end where the next token begins; a '*' that means
    "any number of times" is not followed by a letter, digit or '_' (it would begin a "*name") *)
Fixpoint wf_rx (p : list rtok) : Prop :=
  match p with
  | [] => True
  | Ch a q :: t => plain_one a /\ (q = AnyTimes -> ~ rstarts_word t) /\ wf_rx t
  | RParam n :: t | RSplat n :: t => n <> [] /\ forallb is_word n = true /\ ~ rstarts_word t /\ wf_rx t
  end.

Fixpoint rtext1 (p : list rtok) : qstring :=
  match p with
  | [] => []
  | Ch a q :: t => char_text a :: often_text q ++ rtext1 t
  | RParam n :: t => group_param ++ rtext1 t
  | RSplat n :: t => 42 :: n ++ rtext1 t
  end.
Fixpoint rtext2 (p : list rtok) : qstring :=
  match p with
  | [] => []
  | Ch a q :: t => char_text a :: often_text q ++ rtext2 t
  | RParam n :: t => group_param ++ rtext2 t
  | RSplat n :: t => group_splat ++ rtext2 t
  end.
Definition rpnames (p : list rtok) : list qstring := flat_map (fun t => match t with RParam n => [n] | _ => [] end) p.
Definition rsnames (p : list rtok) : list qstring := flat_map (fun t => match t with RSplat n => [n] | _ => [] end) p.
Notation nws := (not_word_start uword).
Lemma rtext_start p : wf_rx p -> ~ rstarts_word p -> nws (rtext p).
Proof. destruct p as [|[[z|] q|n|n] p]; cbn; auto. intros _ H. destruct (is_word z); auto. now destruct H. Qed.
Lemma rtext1_start p : wf_rx p -> ~ rstarts_word p -> nws (rtext1 p).
Proof. destruct p as [|[[z|] q|n|n] p]; cbn; auto. intros _ H. destruct (is_word z); auto. now destruct H. Qed.
Lemma plain_code a : plain_one a -> char_text a <> 58 /\ char_text a <> 42.
Proof. destruct a as [z|]; cbn; [|split; discriminate]. intros H. destruct (plain_neq _ H) as (A & B & _). auto. Qed.
Lemma replaced_plain g s l : replaced g (map PChar s ++ l) = s ++ replaced g l /\ names_of (map PChar s ++ l) = names_of l.
Proof. unfold replaced, names_of. rewrite !flat_map_app. split; [f_equal|]; induction s as [|c s IH]; cbn in *; congruence. Qed.
Lemma rpass1 p : wf_rx p -> replaced group_param (marks colon None (rtext p)) = rtext1 p /\ names_of (marks colon None (rtext p)) = rpnames p.
Proof.
  induction p as [|[a q|n|n] p IH]; cbn [wf_rx rtext rtext1]; intros H; auto.
  - destruct H as (Ha & _ & H). destruct (plain_code _ Ha) as (H1 & _). destruct (IH H) as (IH1 & IH2).
    change (char_text a :: often_text q ++ rtext p) with ((char_text a :: often_text q) ++ rtext p). rewrite marks_app_plain.
    + destruct (replaced_plain group_param (char_text a :: often_text q) (marks colon None (rtext p))) as (-> & ->). rewrite IH1, IH2. auto.
    + intros z [<-|Hz]; [exact H1|]. destruct q; cbn in Hz; intuition (subst; discriminate).
  - destruct H as (H1 & H2 & H3 & H). destruct (IH H) as (IH1 & IH2). change (58 :: n ++ rtext p) with (colon :: n ++ rtext p).
    rewrite marks_name; auto using rtext_start. cbn [replaced flat_map names_of rpnames]. unfold replaced, names_of in *. rewrite IH1, IH2. auto.
  - destruct H as (H1 & H2 & H3 & H). destruct (IH H) as (IH1 & IH2). change (42 :: n ++ rtext p) with ((42 :: n) ++ rtext p).
    rewrite marks_app_plain.
    + destruct (replaced_plain group_param (42 :: n) (marks colon None (rtext p))) as (-> & ->). rewrite IH1, IH2. auto.
    + intros z [<-|Hz]; [discriminate|]. eapply word_not; eauto.
Qed.
Lemma marks_lone rest : nws rest -> marks star None (42 :: rest) = PChar 42 :: marks star None rest.
Proof. intros H. cbn [Router.marks]. change (42 =? star) with true. cbv iota. destruct rest as [|c t]; [reflexivity|]. cbn in H. cbn [Router.marks]. rewrite H. reflexivity. Qed.
Lemma rpass2 p : wf_rx p -> replaced group_splat (marks star None (rtext1 p)) = rtext2 p /\ names_of (marks star None (rtext1 p)) = rsnames p.
Proof.
  induction p as [|[a q|n|n] p IH]; cbn [wf_rx rtext1 rtext2]; intros H; auto.
  - destruct H as (Ha & Hq & H). destruct (plain_code _ Ha) as (_ & H1). destruct (IH H) as (IH1 & IH2).
    assert (E : marks star None (char_text a :: often_text q ++ rtext1 p) = map PChar (char_text a :: often_text q) ++ marks star None (rtext1 p)).
    { assert (N : (char_text a =? star) = false) by now apply Z.eqb_neq.
      destruct q; cbn [often_text app map];
        [|change (char_text a :: 63 :: rtext1 p) with ([char_text a; 63] ++ rtext1 p); rewrite marks_app_plain; [reflexivity|] | |
          change (char_text a :: 43 :: rtext1 p) with ([char_text a; 43] ++ rtext1 p); rewrite marks_app_plain; [reflexivity|]].
      - cbn [Router.marks]. now rewrite N.
      - intros z [<-|[<-|[]]]; [exact H1|discriminate].
      - change (char_text a :: 42 :: rtext1 p) with ([char_text a] ++ (42 :: rtext1 p)). rewrite marks_app_plain by (intros z [<-|[]]; exact H1). rewrite marks_lone; [reflexivity|]. apply rtext1_start; auto.
      - intros z [<-|[<-|[]]]; [exact H1|discriminate]. }
    rewrite E. destruct (replaced_plain group_splat (char_text a :: often_text q) (marks star None (rtext1 p))) as (-> & ->). rewrite IH1, IH2. auto.
  - destruct H as (H1 & H2 & H3 & H). destruct (IH H) as (IH1 & IH2). rewrite marks_app_plain.
    + destruct (replaced_plain group_splat group_param (marks star None (rtext1 p))) as (-> & ->). rewrite IH1, IH2. auto.
    + intros z Hz ->. cbn in Hz. intuition discriminate.
  - destruct H as (H1 & H2 & H3 & H). destruct (IH H) as (IH1 & IH2). change (42 :: n ++ rtext1 p) with (star :: n ++ rtext1 p).
    rewrite marks_name; auto using rtext1_start. cbn [replaced flat_map names_of rsnames]. unfold replaced, names_of in *. rewrite IH1, IH2. auto.
Qed.
Definition atom_of (a : onechar) : atom := match a with This z => AChr z | Dot => AAny end.
Definition item_of (t : rtok) : item :=
  match t with
  | Ch a Once => IOne (atom_of a) | Ch a AtMostOnce => IOpt (atom_of a) | Ch a AnyTimes => IStar (atom_of a) | Ch a AtLeastOnce => IPlus (atom_of a)
  | RParam _ => ICapPlus | RSplat _ => ICapStar
  end.
Lemma rtext2_quant p : wf_rx p -> is_quant (rtext2 p) = false.
Proof.
  destruct p as [|[[z|] q|n|n] p]; cbn; auto. intros ((H & _) & _). rewrite !orb_false_iff, !Z.eqb_neq. repeat split; intros ->; discriminate H.
Qed.
Lemma rparse p : wf_rx p -> forall f, (length (rtext2 p) <= f)%nat -> parse_regex f (rtext2 p) = Some (map item_of p).
Proof.
  induction p as [|[a q|n|n] p IH]; cbn [wf_rx rtext2]; intros H f Hf.
  - destruct f; reflexivity.
  - destruct H as (Ha & _ & H). cbn [length] in Hf. rewrite app_length in Hf. destruct f as [|f]; [lia|]. pose proof (rtext2_quant _ H) as Q. pose proof (IH H f ltac:(lia)) as E.
    assert (Hp : char_text a <> 40). { destruct a as [z|]; [|discriminate]. cbn. intros ->. destruct Ha as (Ha & _). discriminate Ha. }
    cbn [parse_regex strip group_param group_splat qlit lit list_ascii_of_string map].
    change (byte_val "(") with 40. replace (40 =? char_text a) with false by (symmetry; apply Z.eqb_neq; congruence).
    assert (EA : (if char_text a =? 46 then Some AAny else if is_meta (char_text a) then None else Some (AChr (char_text a))) = Some (atom_of a)).
    { destruct a as [z|]; [|reflexivity]. cbn [char_text atom_of]. destruct Ha as (Ha & Ha'). rewrite Ha. destruct (z =? 46) eqn:X; [|reflexivity]. apply Z.eqb_eq in X. subst. discriminate Ha. }
    rewrite EA. destruct q; cbn [often_text app item_of].
    + destruct (rtext2 p) as [|c t] eqn:Et; [cbn; now rewrite E|]. cbn in Q. rewrite !orb_false_iff in Q. destruct Q as (((Q1 & Q2) & Q3) & Q4). rewrite Q1, Q2, Q3. cbn [is_quant]. rewrite Q1, Q2, Q3, Q4. cbn [orb]. now rewrite E.
    + change (63 =? 42) with false. change (63 =? 43) with false. change (63 =? 63) with true. cbv iota. now rewrite Q, E.
    + change (42 =? 42) with true. cbv iota. now rewrite Q, E.
    + change (43 =? 42) with false. change (43 =? 43) with true. cbv iota. now rewrite Q, E.
  - destruct H as (_ & _ & _ & H). destruct f as [|f]; [cbn in Hf; lia|]. rewrite app_length in Hf. cbn [length group_param qlit lit list_ascii_of_string map] in Hf.
    pose proof (IH H f ltac:(lia)) as E. cbn [parse_regex].
    change (group_param ++ rtext2 p) with (byte_val "(" :: tl group_param ++ rtext2 p) at 1. cbv iota beta.
    change (byte_val "(" :: tl group_param ++ rtext2 p) with (group_param ++ rtext2 p). rewrite strip_app, (rtext2_quant _ H), E. reflexivity.
  - destruct H as (_ & _ & _ & H). destruct f as [|f]; [cbn in Hf; lia|]. rewrite app_length in Hf. cbn [length group_splat qlit lit list_ascii_of_string map] in Hf.
    pose proof (IH H f ltac:(lia)) as E. change (parse_regex (S f) (group_splat ++ rtext2 p) = Some (ICapStar :: map item_of p)).
    cbn [parse_regex group_splat qlit lit list_ascii_of_string map app]. cbn [strip group_param qlit lit list_ascii_of_string map].
    change (byte_val "(" =? byte_val "(") with true. change (byte_val "[" =? byte_val ".") with false. cbv iota.
    change (byte_val "." =? byte_val ".") with true. change (byte_val "*" =? byte_val "*") with true. change (byte_val ")" =? byte_val ")") with true. cbv iota.
    rewrite (rtext2_quant _ H), E. reflexivity.
Qed.
Lemma raddRoute_eq m p t : wf_rx p -> addRoute uword m (rtext p) t = Some (mkRoute m (map item_of p) (rpnames p ++ rsnames p) t).
Proof.
  intros H. unfold addRoute, pathToRegExp. destruct (rpass1 p H) as (E1 & E2). rewrite E1, E2. destruct (rpass2 p H) as (E3 & E4). rewrite E3, E4.
  now rewrite rparse.
Qed.
Lemma atom_char a z : atom_ok (atom_of a) z = true <-> is_char a z.
Proof. destruct a; cbn; [apply Z.eqb_eq|easy]. Qed.
Lemma atom_all a w : forallb (atom_ok (atom_of a)) w = true <-> Forall (is_char a) w.
Proof. rewrite forallb_forall, Forall_forall. split; intros H z Hz; apply atom_char; auto. Qed.
Lemma rmat_sound p : forall s vs, mat (map item_of p) s = Some vs -> RDenotes p s vs.
Proof.
  induction p as [|[a q|n|n] p IH]; cbn [map]; intros s vs H.
  - destruct s; inversion H. constructor.
  - destruct q; cbn [item_of Router.mat] in H.
    + destruct s as [|c t]; [discriminate|]. destruct (atom_ok _ c) eqn:E; [|discriminate]. apply atom_char in E. change (c :: t) with ([c] ++ t). constructor; auto. reflexivity.
    + destruct s as [|c t]; [change (@nil Z) with (@nil Z ++ []); constructor; auto; cbn; lia|]. destruct (atom_ok _ c) eqn:E.
      * destruct (mat (map item_of p) t) as [r|] eqn:M.
        -- injection H as <-. apply atom_char in E. change (c :: t) with ([c] ++ t). constructor; auto. cbn. lia.
        -- change (c :: t) with ([] ++ c :: t). constructor; auto. cbn. lia.
      * change (c :: t) with ([] ++ c :: t). constructor; auto. cbn. lia.
    + match type of H with match ?g with _ => _ end = _ => destruct g as [(w, r)|] eqn:G end; inversion H; subst.
      apply greedy_sound in G as (s' & -> & F & K). constructor; [now apply atom_all|exact I|auto].
    + destruct s as [|c t]; [discriminate|]. destruct (atom_ok _ c) eqn:E; [|discriminate].
      match type of H with match ?g with _ => _ end = _ => destruct g as [(w, r)|] eqn:G end; inversion H; subst.
      apply greedy_sound in G as (s' & -> & F & K). change (c :: w ++ s') with ((c :: w) ++ s'). constructor; [|cbn; lia|auto]. apply atom_all. cbn [forallb]. now rewrite E.
  - cbn [item_of Router.mat] in H. destruct s as [|c t]; [discriminate|]. destruct (is_seg c) eqn:E; [|discriminate].
    match type of H with match ?g with _ => _ end = _ => destruct g as [(w, r)|] eqn:G end; inversion H; subst.
    apply greedy_sound in G as (s' & -> & F & K). change (c :: w ++ s') with ((c :: w) ++ s'). constructor; [discriminate| |now apply IH].
    apply seg_all. cbn [forallb]. now rewrite E.
  - cbn [item_of Router.mat] in H. match type of H with match ?g with _ => _ end = _ => destruct g as [(w, r)|] eqn:G end; inversion H; subst.
    apply greedy_sound in G as (s' & -> & F & K). constructor. now apply IH.
Qed.
Lemma rmat_complete p s vs : RDenotes p s vs -> mat (map item_of p) s <> None.
Proof.
  induction 1 as [|a q p v s vs Hv Hq H IH|n p v s vs Hv Hf H IH|n p v s vs H IH]; cbn [map].
  - discriminate.
  - apply atom_all in Hv. destruct q; cbn [item_of Router.mat so_often] in *.
    + destruct v as [|c [|? ?]]; try discriminate. cbn [forallb] in Hv. rewrite andb_true_r in Hv. cbn [app]. now rewrite Hv.
    + destruct v as [|c [|? ?]]; [|cbn [forallb] in Hv; rewrite andb_true_r in Hv; cbn [app]; rewrite Hv; destruct (mat _ s); [discriminate|congruence]|cbn in Hq; lia].
      cbn [app]. destruct s as [|c t]; [exact IH|]. destruct (atom_ok _ c); [destruct (mat _ t); [discriminate|exact IH]|exact IH].
    + pose proof (greedy_complete (atom_ok (atom_of a)) (mat (map item_of p)) v s Hv IH) as G. destruct (greedy _ _ _) as [(w, r)|]; [discriminate|congruence].
    + destruct v as [|c v]; [cbn in Hq; lia|]. cbn [forallb] in Hv. apply andb_true_iff in Hv as (H1 & H2). cbn [app]. rewrite H1.
      pose proof (greedy_complete (atom_ok (atom_of a)) (mat (map item_of p)) v s H2 IH) as G. destruct (greedy _ _ _) as [(w, r)|]; [discriminate|congruence].
  - cbn [item_of Router.mat]. destruct v as [|c v]; [congruence|]. inversion Hf; subst. cbn [app]. rewrite (proj2 (seg_char uword c)) by auto.
    pose proof (greedy_complete is_seg (mat (map item_of p)) v s) as G. destruct (greedy _ _ _) as [(w, r)|]; [discriminate|]. now destruct G; [apply seg_all| |].
  - cbn [item_of Router.mat]. pose proof (greedy_complete (fun _ => true) (mat (map item_of p)) v s) as G. destruct (greedy _ _ _) as [(w, r)|]; [discriminate|]. destruct G; auto.
    clear. now induction v.
Qed.
Lemma rmat_spec p s : mat (map item_of p) s <> None <-> exists vs, RDenotes p s vs.
Proof.
  split.
  - destruct (mat _ s) as [vs|] eqn:E; [|congruence]. intros _. exists vs. now apply rmat_sound.
  - intros (vs & H). eapply rmat_complete; eauto.
Qed.
End S.
