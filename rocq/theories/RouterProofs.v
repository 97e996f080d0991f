From Verif Require Import Bytes Params Router RouterSpec.
Open Scope Z_scope.
Section S.
Variable uword : Z -> bool.
Notation is_word := (is_word uword).
Notation is_seg := (is_seg uword).
Notation marks := (marks uword).
Notation mat := (mat uword).
Notation Denotes := (Denotes uword).
Notation wf_pattern := (wf_pattern uword).

Lemma marks_app_plain mark s rest : (forall z, In z s -> z <> mark) -> marks mark None (s ++ rest) = map PChar s ++ marks mark None rest.
Proof.
  induction s as [|c s IH]; intros H; cbn; auto. destruct (c =? mark) eqn:E; [apply Z.eqb_eq in E; destruct (H c); cbn; auto|].
  rewrite IH; auto. intros z Hz. apply H. now right.
Qed.
Lemma marks_word mark n rest : forall acc, forallb is_word n = true -> marks mark (Some acc) (n ++ rest) = marks mark (Some (acc ++ n)) rest.
Proof.
  induction n as [|c n IH]; intros acc H; cbn; [now rewrite app_nil_r|]. cbn in H. apply andb_true_iff in H as (H1 & H2). rewrite H1, IH; auto.
  now rewrite <- app_assoc.
Qed.
Definition not_word_start (s : qstring) : Prop := match s with c :: _ => is_word c = false | [] => True end.
Lemma marks_name mark n rest : is_word mark = false -> n <> [] -> forallb is_word n = true -> not_word_start rest ->
  marks mark None (mark :: n ++ rest) = PName n :: marks mark None rest.
Proof.
  intros Hm Hn Hw Hr. cbn [Router.marks]. rewrite Z.eqb_refl, marks_word by auto. cbn [app]. destruct rest as [|c t]; cbn [Router.marks].
  - destruct n; congruence.
  - cbn in Hr. rewrite Hr. destruct n; [congruence|]. reflexivity.
Qed.
(* after the first pass *)
Fixpoint text1 (p : list tok) : qstring :=
  match p with
  | [] => []
  | Lit z :: t => z :: text1 t
  | Param n :: t => group_param ++ text1 t
  | Splat n :: t => 42 :: n ++ text1 t
  end.
Fixpoint text2 (p : list tok) : qstring :=
  match p with
  | [] => []
  | Lit z :: t => z :: text2 t
  | Param n :: t => group_param ++ text2 t
  | Splat n :: t => group_splat ++ text2 t
  end.
Definition pnames (p : list tok) : list qstring := flat_map (fun t => match t with Param n => [n] | _ => [] end) p.
Definition snames (p : list tok) : list qstring := flat_map (fun t => match t with Splat n => [n] | _ => [] end) p.
Lemma word_not m n : is_word m = false -> forallb is_word n = true -> forall z, In z n -> z <> m.
Proof. intros Hm H z Hz ->. rewrite forallb_forall in H. apply H in Hz. congruence. Qed.
Lemma plain_neq z : plain_char z -> z <> 58 /\ z <> 42 /\ z <> 46.
Proof. intros (H & H'). repeat split; auto; intros ->; discriminate. Qed.
Lemma text_start p : wf_pattern p -> ~ starts_word uword p -> not_word_start (text p).
Proof. destruct p as [|[z|n|n] p]; cbn; auto. intros _ H. destruct (is_word z); auto. now destruct H. Qed.
Lemma text1_start p : wf_pattern p -> ~ starts_word uword p -> not_word_start (text1 p).
Proof. destruct p as [|[z|n|n] p]; cbn; auto. intros _ H. destruct (is_word z); auto. now destruct H. Qed.
Lemma pass1 p : wf_pattern p -> replaced group_param (marks colon None (text p)) = text1 p /\ names_of (marks colon None (text p)) = pnames p.
Proof.
  induction p as [|[z|n|n] p IH]; cbn [RouterSpec.wf_pattern text text1]; intros H; auto.
  - destruct H as (Hz & H). destruct (plain_neq _ Hz) as (H1 & _). destruct (IH H) as (IH1 & IH2). cbn [Router.marks].
    replace (z =? colon) with false by (symmetry; now apply Z.eqb_neq). unfold replaced, names_of in *. cbn [flat_map app pnames snames]. rewrite IH1, IH2. auto.
  - destruct H as (H1 & H2 & H3 & H). destruct (IH H) as (IH1 & IH2). change (58 :: n ++ text p) with (colon :: n ++ text p).
    rewrite marks_name; auto using text_start. cbn [replaced flat_map names_of pnames]. unfold replaced, names_of in *. rewrite IH1, IH2. auto.
  - destruct H as (H1 & H2 & H3 & H). destruct (IH H) as (IH1 & IH2). change (42 :: n ++ text p) with ((42 :: n) ++ text p).
    rewrite marks_app_plain.
    + unfold replaced, names_of in *. rewrite !flat_map_app, IH1, IH2. cbn [map flat_map pnames app]. split.
      * f_equal. f_equal. clear. induction n as [|c n IHn]; cbn in *; [reflexivity|]. now rewrite IHn.
      * clear. fold (pnames p). induction n as [|c n IHn]; cbn in *; auto.
    + intros z [<-|Hz]; [discriminate|]. eapply word_not; eauto.
Qed.
Lemma pass2 p : wf_pattern p -> replaced group_splat (marks star None (text1 p)) = text2 p /\ names_of (marks star None (text1 p)) = snames p.
Proof.
  induction p as [|[z|n|n] p IH]; cbn [RouterSpec.wf_pattern text1 text2]; intros H; auto.
  - destruct H as (Hz & H). destruct (plain_neq _ Hz) as (_ & H1 & _). destruct (IH H) as (IH1 & IH2). cbn [Router.marks].
    replace (z =? star) with false by (symmetry; now apply Z.eqb_neq). unfold replaced, names_of in *. cbn [flat_map app pnames snames]. rewrite IH1, IH2. auto.
  - destruct H as (H1 & H2 & H3 & H). destruct (IH H) as (IH1 & IH2). rewrite marks_app_plain.
    + unfold replaced, names_of in *. rewrite !flat_map_app, IH1, IH2. cbn [map flat_map snames app]. auto.
    + intros z Hz ->. cbn in Hz. intuition discriminate.
  - destruct H as (H1 & H2 & H3 & H). destruct (IH H) as (IH1 & IH2). change (42 :: n ++ text1 p) with (star :: n ++ text1 p).
    rewrite marks_name; auto using text1_start. cbn [replaced flat_map names_of snames]. unfold replaced, names_of in *. rewrite IH1, IH2. auto.
Qed.
Definition items (p : list tok) : list item := map (fun t => match t with Lit z => IOne (AChr z) | Param _ => ICapPlus | Splat _ => ICapStar end) p.
Lemma text2_quant p : wf_pattern p -> is_quant (text2 p) = false.
Proof.
  destruct p as [|[z|n|n] p]; cbn; auto. intros ((H & _) & _). rewrite !orb_false_iff, !Z.eqb_neq. repeat split; intros ->; discriminate H.
Qed.
Lemma strip_app pre s : strip pre (pre ++ s) = Some s.
Proof. induction pre; cbn; auto. now rewrite Z.eqb_refl. Qed.
Lemma parse_items p : wf_pattern p -> forall f, (length (text2 p) <= f)%nat -> parse_regex f (text2 p) = Some (items p).
Proof.
  induction p as [|[z|n|n] p IH]; cbn [RouterSpec.wf_pattern text2]; intros H f Hf.
  - destruct f; reflexivity.
  - destruct H as ((Hz & _) & H). cbn in Hf. destruct f as [|f]; [lia|]. pose proof (text2_quant _ H) as Q. pose proof (IH H f ltac:(lia)) as E.
    assert (Hm : forall m, In m metas -> z <> m). { intros m Hm ->. unfold is_meta in Hz. rewrite <- not_true_iff_false, existsb_exists in Hz. apply Hz. exists m. split; auto. apply Z.eqb_refl. }
    cbn [parse_regex strip group_param group_splat qlit lit list_ascii_of_string map].
    change (byte_val "(") with 40. replace (40 =? z) with false by (symmetry; apply Z.eqb_neq; intros <-; now apply (Hm 40); [cbn; auto 20|]).
    replace (z =? 46) with false by (symmetry; apply Z.eqb_neq; apply Hm; cbn; auto 20). rewrite Hz. rewrite Q, E.
    destruct (text2 p) as [|q t] eqn:Et; [reflexivity|]. cbn in Q. rewrite !orb_false_iff in Q. destruct Q as (((Q1 & Q2) & Q3) & _). now rewrite Q1, Q2, Q3.
  - destruct H as (_ & _ & _ & H). destruct f as [|f]; [cbn in Hf; lia|]. rewrite app_length in Hf. cbn [length group_param qlit lit list_ascii_of_string map] in Hf.
    pose proof (IH H f ltac:(lia)) as E. cbn [parse_regex]. 
    change (group_param ++ text2 p) with (byte_val "(" :: tl group_param ++ text2 p) at 1. cbv iota beta.
    change (byte_val "(" :: tl group_param ++ text2 p) with (group_param ++ text2 p). rewrite strip_app, (text2_quant _ H), E. reflexivity.
  - destruct H as (_ & _ & _ & H). destruct f as [|f]; [cbn in Hf; lia|]. rewrite app_length in Hf. cbn [length group_splat qlit lit list_ascii_of_string map] in Hf.
    pose proof (IH H f ltac:(lia)) as E. change (parse_regex (S f) (group_splat ++ text2 p) = Some (ICapStar :: items p)).
    cbn [parse_regex group_splat qlit lit list_ascii_of_string map app]. cbn [strip group_param qlit lit list_ascii_of_string map].
    change (byte_val "(" =? byte_val "(") with true. change (byte_val "[" =? byte_val ".") with false. cbv iota.
    change (byte_val "." =? byte_val ".") with true. change (byte_val "*" =? byte_val "*") with true. change (byte_val ")" =? byte_val ")") with true. cbv iota.
    rewrite (text2_quant _ H), E. reflexivity.
Qed.

(* the matcher *)
Lemma greedy_sound {A} f (k : qstring -> option A) s : forall w r, greedy f k s = Some (w, r) ->
  exists s', s = w ++ s' /\ forallb f w = true /\ k s' = Some r.
Proof.
  induction s as [|c t IH]; cbn; intros w r H.
  - destruct (k []) eqn:E; inversion H; subst. exists []. auto.
  - destruct (f c) eqn:Ef.
    + destruct (greedy f k t) as [(w', r')|] eqn:E.
      * inversion H; subst. destruct (IH _ _ eq_refl) as (s' & -> & F & K). exists s'. cbn. now rewrite Ef.
      * destruct (k (c :: t)) eqn:E'; inversion H; subst. exists (c :: t). auto.
    + destruct (k (c :: t)) eqn:E'; inversion H; subst. exists (c :: t). auto.
Qed.
Lemma greedy_complete {A} f (k : qstring -> option A) w s' : forallb f w = true -> k s' <> None -> greedy f k (w ++ s') <> None.
Proof.
  intros Hw Hk. induction w as [|c w IH]; cbn [app].
  - destruct s' as [|c t]; cbn [greedy]; [now destruct (k [])|]. destruct (f c); [destruct (greedy f k t) as [(?, ?)|]; [discriminate|]|]; now destruct (k (c :: t)).
  - cbn [forallb] in Hw. apply andb_true_iff in Hw as (H1 & H2). cbn [greedy]. rewrite H1. destruct (greedy f k (w ++ s')) as [(?, ?)|]; [discriminate|]. now destruct (IH H2).
Qed.
Lemma seg_char z : is_seg z = true <-> segment_char uword z.
Proof.
  unfold Router.is_seg, segment_char. rewrite !orb_true_iff, !Z.eqb_eq. split; [intros [[H|H]|H]|intros [H|H]]; subst; auto.
Qed.
Lemma seg_all w : forallb is_seg w = true <-> Forall (segment_char uword) w.
Proof. rewrite forallb_forall, Forall_forall. split; intros H z Hz; apply seg_char; auto. Qed.
Lemma mat_sound p : forall s vs, mat (items p) s = Some vs -> Denotes p s vs.
Proof.
  induction p as [|[z|n|n] p IH]; cbn [items map Router.mat]; intros s vs H.
  - destruct s; inversion H. constructor.
  - destruct s as [|c t]; [discriminate|]. cbn [atom_ok] in H. destruct (c =? z) eqn:E; [|discriminate]. apply Z.eqb_eq in E as ->. constructor. auto.
  - destruct s as [|c t]; [discriminate|]. destruct (is_seg c) eqn:E; [|discriminate].
    match type of H with match ?g with _ => _ end = _ => destruct g as [(w, r)|] eqn:G end; inversion H; subst.
    apply greedy_sound in G as (s' & -> & F & K). change (c :: w ++ s') with ((c :: w) ++ s'). constructor; [discriminate| |now apply IH].
    apply seg_all. cbn. now rewrite E.
  - match type of H with match ?g with _ => _ end = _ => destruct g as [(w, r)|] eqn:G end; inversion H; subst.
    apply greedy_sound in G as (s' & -> & F & K). constructor. now apply IH.
Qed.
Lemma mat_complete p s vs : Denotes p s vs -> mat (items p) s <> None.
Proof.
  induction 1 as [|z p s vs H IH|n p v s vs Hv Hf H IH|n p v s vs H IH]; cbn [items map Router.mat].
  - discriminate.
  - cbn [atom_ok]. now rewrite Z.eqb_refl.
  - destruct v as [|c v]; [congruence|]. inversion Hf; subst. cbn [app]. rewrite (proj2 (seg_char c)) by auto.
    pose proof (greedy_complete is_seg (mat (items p)) v s) as G. destruct (greedy _ _ _) as [(w, r)|]; [discriminate|]. now destruct G; [apply seg_all| |].
  - pose proof (greedy_complete (fun _ => true) (mat (items p)) v s) as G. fold (items p). destruct (greedy _ _ _) as [(w, r)|]; [discriminate|]. destruct G; auto.
    clear. now induction v.
Qed.
Lemma addRoute_eq m p t : wf_pattern p -> addRoute uword m (text p) t = Some (mkRoute m (items p) (pnames p ++ snames p) t).
Proof.
  intros H. unfold addRoute, pathToRegExp. destruct (pass1 p H) as (E1 & E2). rewrite E1, E2. destruct (pass2 p H) as (E3 & E4). rewrite E3, E4.
  now rewrite parse_items.
Qed.
Lemma names_params_first p : params_first p -> pnames p ++ snames p = names p.
Proof.
  assert (N : forall p, existsb is_param p = false -> pnames p = [] /\ snames p = names p).
  { clear. induction p as [|[z|n|n] p IH]; cbn; auto; intros H; try discriminate; auto. destruct (IH H) as (E1 & E2). unfold pnames, snames in *. rewrite E1, E2. auto. }
  induction p as [|[z|n|n] p IH]; cbn; auto.
  - intros H. f_equal. now apply IH.
  - intros (H & _). destruct (N _ H) as (E1 & E2). unfold pnames, snames in *. rewrite E1, E2. reflexivity.
Qed.
Lemma Denotes_length p s vs : Denotes p s vs -> length vs = length (names p).
Proof. induction 1; cbn; auto. Qed.
End S.
