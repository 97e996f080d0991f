(** C61: the content of a request that a proxy sends upstream. *)
From Verif Require Import Bytes ByteHelpers Thin Helpers ReqGrammar TextSpec
  Conn ConnSpec ConnInv ConnEnd ConnLog PropsConn ConnSend ConnPhase ConnLive PropsConn8 Getters PropsGetters FieldCopies PropsCopies Upload.
Open Scope Z_scope.

Section Version.
Variable qt5 : bool.
Local Notation VI := (PropsCopies.VI qt5).
Local Notation ustep := (Upload.ustep qt5).
Local Notation urun := (Upload.urun qt5).
Definition upolite (g : ucfg) (a : uact) : Prop := match g, a with URun g _, UAct a => vpolite g a | _, _ => True end.
Fixpoint upolite_run (g : ucfg) (l : list uact) {struct l} : Prop :=
  match l with [] => True | a :: t => upolite g a /\ upolite_run (ustep g a) t end.
(* the pieces are read while the request announced as number n is answered, and nothing else is proxied *)
Definition timely (n : nat) (g : ucfg) (a : uact) : Prop :=
  match g, a with
  | URun (VRun c stk w) _, URead _ _ => answering c stk /\ w_n w = n
  | _, UStart => False
  | _, _ => True
  end.
Fixpoint timely_run (n : nat) (g : ucfg) (l : list uact) {struct l} : Prop :=
  match l with [] => True | a :: t => timely n g a /\ timely_run n (ustep g a) t end.

(* how many bytes the server has asked for *)
Fixpoint asked (l : list uact) : nat :=
  match l with [] => 0 | URead len _ :: t => len + asked t | _ :: t => asked t end.
Definition UI (n : nat) (v : bytes) (k : nat) (g : ucfg) : Prop :=
  match g with
  | URun VBad _ => True
  | URun g u => VI g /\ exists up, u = Some up /\ u_sent up = firstn k v /\ u_pos up = Nat.min k (length v) /\
      v_size (u_from up) = blen v /\ (v_data (u_from up) = Own v \/ v_data (u_from up) = Raw n v \/ v_data (u_from up) = Lit /\ v = [])
  end.
Lemma firstn_more {A} p k (v : list A) : firstn p v ++ firstn k (skipn (Nat.min p (length v)) v) = firstn (p + k) v /\
  (Nat.min p (length v) + length (firstn k (skipn (Nat.min p (length v)) v)) = Nat.min (p + k) (length v))%nat.
Proof.
  rewrite firstn_length, skipn_length. split; [|lia]. revert v. induction p as [|p IH]; intros [|x v].
  - cbn [length Nat.min skipn firstn app Nat.add]. now rewrite !firstn_nil.
  - cbn [length Nat.min skipn firstn app Nat.add]. reflexivity.
  - cbn [length Nat.min skipn firstn app Nat.add]. now rewrite !firstn_nil.
  - cbn [length Nat.min skipn firstn app Nat.add]. f_equal. apply IH.
Qed.
Lemma UI_step n v k g a : UI n v k g -> upolite g a -> timely n g a -> UI n v (k + asked [a]) (ustep g a).
Proof.
  intros H HP HT. destruct g as [[c stk w|] u]; [|exact Logic.I]. destruct H as (HV & up & -> & H1 & H2 & H2' & H3).
  destruct a as [a| |len junk]; cbn [Upload.ustep asked].
  - rewrite Nat.add_0_r. pose proof (VI_step qt5 (VRun c stk w) a HV HP) as HV'. destruct (vstep qt5 (VRun c stk w) a) as [c' stk' w'|]; [|exact Logic.I]. split; [exact HV'|]. exists up. auto.
  - destruct HT.
  - rewrite Nat.add_0_r. destruct HT as (Ha & En). split; auto. eexists. split; [reflexivity|]. cbn [u_from u_sent u_pos].
    assert (E : behind c stk w junk (u_from up) = v).
    { unfold behind. rewrite H2'. apply answeringb_iff in Ha. rewrite Ha. cbn [andb]. unfold blen. rewrite Nat2Z.id.
      destruct H3 as [-> |[-> |(-> & ->)]]; rewrite ?En, ?Nat.eqb_refl; apply firstn_all. }
    rewrite E, H1, H2. destruct (firstn_more k len v) as (F1 & F2). auto.
Qed.
Lemma UI_run n v l : forall k g, UI n v k g -> upolite_run g l -> timely_run n g l -> UI n v (k + asked l) (urun g l).
Proof.
  induction l as [|a l IH]; intros k g H HP HT; [cbn [asked]; rewrite Nat.add_0_r; exact H|]. destruct HP as (HP & HP'), HT as (HT & HT'). cbn [Upload.urun fold_left].
  replace (k + asked (a :: l))%nat with (k + asked [a] + asked l)%nat by (destruct a; cbn [asked]; lia). apply IH; auto. now apply UI_step.
Qed.
Lemma uVI_step g u a g' u' : VI g -> upolite (URun g u) a -> ustep (URun g u) a = URun g' u' -> VI g'.
Proof.
  intros H HP E. destruct g as [c stk w|]; [|injection E as <- <-; exact H]. destruct a as [a| |len junk]; cbn [Upload.ustep] in E.
  - injection E as <- <-. exact (VI_step qt5 (VRun c stk w) a H HP).
  - injection E as <- <-. exact H.
  - destruct u; injection E as <- <-; exact H.
Qed.
Lemma uVI_run l : forall g u g' u', VI g -> upolite_run (URun g u) l -> urun (URun g u) l = URun g' u' -> VI g'.
Proof.
  induction l as [|a l IH]; intros g u g' u' H HP E; [injection E as <- <-; exact H|]. destruct HP as (HP & HP'). cbn [Upload.urun fold_left] in E.
  destruct (ustep (URun g u) a) as [g1 u1] eqn:E1. eapply IH; [|exact HP'|exact E]. eapply uVI_step; eauto.
Qed.

(** What the server gets is the content, in order and without gaps, as far as it has asked for it, as long as the pieces
    are read before the slots of requestCompleted() have returned. *)
Theorem C61_upload : forall l1 l2 c stk w u r c2 stk2 w2 up, upolite_run ustart (l1 ++ UStart :: l2) ->
  urun ustart l1 = URun (VRun c stk w) u -> answering c stk -> current c r ->
  timely_run (w_n w) (ustep (URun (VRun c stk w) u) UStart) l2 ->
  urun ustart (l1 ++ UStart :: l2) = URun (VRun c2 stk2 w2) (Some up) ->
  u_sent up = firstn (asked l2) (q_content r).
Proof.
  intros l1 l2 c stk w u r c2 stk2 w2 up HP E Ha Hr HT E2.
  assert (HPA : upolite_run ustart l1 /\ upolite_run (urun ustart l1) (UStart :: l2)).
  { clear - HP. revert HP. generalize ustart. induction l1 as [|a l IH]; intros g HP; [split; [exact Logic.I|exact HP]|].
    destruct HP as (H1 & H2). apply IH in H2 as (H2 & H3). split; [split|]; assumption. }
  destruct HPA as (HP1 & HP2). rewrite E in HP2. destruct HP2 as (_ & HP2).
  assert (HV : VI (VRun c stk w)) by (eapply (uVI_run l1); [apply VI_start|exact HP1|exact E]).
  assert (X : UI (w_n w) (q_content r) 0 (ustep (URun (VRun c stk w) u) UStart)).
  { split; [exact HV|]. eexists. split; [reflexivity|]. cbn [u_sent u_pos u_from]. split; [reflexivity|]. split; [reflexivity|].
    exact (proj2 (proj2 HV) Ha r Hr VContent). }
  pose proof (UI_run _ _ _ _ _ X HP2 HT) as Y. unfold Upload.urun in E2. rewrite fold_left_app in E2. cbn [fold_left] in E2.
  change (fold_left ustep l1 ustart) with (urun ustart l1) in E2. rewrite E in E2. unfold Upload.urun in Y. rewrite E2 in Y.
  destruct Y as (_ & up' & E' & H1 & _). injection E' as <-. exact H1.
Qed.

Definition upoliteb (g : ucfg) (a : uact) : bool := match g, a with URun g _, UAct a => vpoliteb g a | _, _ => true end.
Fixpoint upoliteb_run (g : ucfg) (l : list uact) {struct l} : bool :=
  match l with [] => true | a :: t => upoliteb g a && upoliteb_run (ustep g a) t end.
Lemma upoliteb_ok l : forall g, upoliteb_run g l = true -> upolite_run g l.
Proof.
  induction l as [|a l IH]; intros g H; [exact Logic.I|]. cbn [upoliteb_run] in H. apply andb_true_iff in H as (H1 & H2).
  split; [|now apply IH]. destruct g as [g u], a as [a| |]; try exact Logic.I. destruct g as [c stk w|]; [|exact Logic.I].
  destruct a; try exact Logic.I. now apply politeb_ok.
Qed.
End Version.
(* what the server got *)
Definition runs (g : ucfg) : bool := match g with URun (VRun _ _ _) (Some _) => true | _ => false end.
Definition got (g : ucfg) : bytes := match g with URun _ (Some up) => u_sent up | _ => [] end.
(** A case: the server takes the content in two pieces. *)
Definition uploading : list uact := map UAct arriving ++ UStart :: [URead 2 []; URead 5 []].
Example C61_upload_case : forall qt5,
  let g := urun qt5 ustart (map UAct arriving) in
  upolite_run qt5 ustart uploading /\ (exists c stk w, g = URun (VRun c stk w) None /\ answering c stk /\ timely_run qt5 (w_n w) (ustep qt5 g UStart) [URead 2 []; URead 5 []]) /\
  runs (urun qt5 ustart uploading) = true /\ got (urun qt5 ustart uploading) = lit "abc" /\ asked [URead 2 []; URead 5 []] = 7%nat.
Proof.
  intros qt5. cbv zeta. split; [apply upoliteb_ok; destruct qt5; vm_compute; reflexivity|]. split.
  - exists (fst (fst (v_state (vrun qt5 vstart arriving)))), (snd (fst (v_state (vrun qt5 vstart arriving)))), (snd (v_state (vrun qt5 vstart arriving))).
    split; [destruct qt5; vm_compute; reflexivity|]. split; [left; destruct qt5; vm_compute; reflexivity|].
    destruct qt5; vm_compute; auto.
  - destruct qt5; vm_compute; auto.
Qed.
(** The server answers before it has read everything.  The client's request is over then, but the bytes that are read
    until the reply is destroyed are whatever is in the request buffer by then; here the rest of the content is
    replaced by bytes of the buffer the connection has moved on to. *)
Definition late_upload (junk : bytes) : list uact :=
  map UAct arriving ++ UStart :: URead 1 [] :: [UAct (VAct (ACall (OpWriteResponse 200 [] (lit "no")))); UAct (VAct AReturn); URead 5 junk].
Theorem C61_late_refuted : forall qt5 junk, upolite_run qt5 ustart (late_upload junk) /\
  got (urun qt5 ustart (late_upload junk)) = lit "a" ++ firstn 2 (skipn 1 junk).
Proof.
  intros qt5 junk. split; [apply upoliteb_ok; destruct qt5; vm_compute; reflexivity|].
  destruct junk as [|x [|y [|z junk]]]; destruct qt5; vm_compute; reflexivity.
Qed.
Print Assumptions C61_upload.
