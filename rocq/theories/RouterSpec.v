(** Specification of route patterns, independent of regular expressions. *)
From Verif Require Import Bytes Params Router.
Open Scope Z_scope.

(** A pattern is a sequence of literal characters, ":name" and "*name". *)
Inductive tok := Lit (z : Z) | Param (n : qstring) | Splat (n : qstring).
(** its text, as given to addRoute *)
Fixpoint text (p : list tok) : qstring :=
  match p with
  | [] => []
  | Lit z :: t => z :: text t
  | Param n :: t => 58 :: n ++ text t
  | Splat n :: t => 42 :: n ++ text t
  end.
Section S.
  Variable uword : Z -> bool.
  Notation is_word := (is_word uword).
  Definition segment_char (z : Z) : Prop := is_word z = true \/ z = 45.
  (** [Denotes p path values]: path is the pattern with each ":name" replaced by a non-empty run of letters, digits,
      '_' and '-', and each "*name" by any text; values are the replacements, in order *)
  Inductive Denotes : list tok -> qstring -> list qstring -> Prop :=
  | D_nil : Denotes [] [] []
  | D_lit z p s vs : Denotes p s vs -> Denotes (Lit z :: p) (z :: s) vs
  | D_param n p v s vs : v <> [] -> Forall segment_char v -> Denotes p s vs -> Denotes (Param n :: p) (v ++ s) (v :: vs)
  | D_splat n p v s vs : Denotes p s vs -> Denotes (Splat n :: p) (v ++ s) (v :: vs).
  (** names, in the order of the pattern *)
  Fixpoint names (p : list tok) : list qstring :=
    match p with [] => [] | Lit _ :: t => names t | Param n :: t | Splat n :: t => n :: names t end.
  (** literal characters are not special characters of regular expressions and not ':'; names are words and end where the
      next token begins *)
  Definition plain_char (z : Z) : Prop := is_meta z = false /\ z <> 58.
  Definition starts_word (p : list tok) : Prop := match p with Lit z :: _ => is_word z = true | _ => False end.
  Fixpoint wf_pattern (p : list tok) : Prop :=
    match p with
    | [] => True
    | Lit z :: t => plain_char z /\ wf_pattern t
    | Param n :: t | Splat n :: t => n <> [] /\ forallb is_word n = true /\ ~ starts_word t /\ wf_pattern t
    end.
  (** no "*name" before a ":name" *)
  Definition is_param (t : tok) : bool := match t with Param _ => true | _ => false end.
  Fixpoint params_first (p : list tok) : Prop :=
    match p with [] => True | Splat _ :: t => existsb is_param t = false /\ params_first t | _ :: t => params_first t end.
End S.
