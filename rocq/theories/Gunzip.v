(** Model of Pillow::GunzipContentTransformer (/repo/pillowcore/HttpClient.cpp 37-96).  zlib's inflate() is a parameter: a
    z_stream is a value, [inflate z i room] is a call with avail_in = |i|, next_in at i and avail_out = room: the new
    stream, the number of bytes of i consumed, the bytes put out, the return code.  _inflatedBuffer is copied when it is
    returned, so only its value counts; it is set to the empty array at the start of each call (55-58).
    A call of transform() is given by a relation, since the loop ends only if inflate() stops filling the buffer. *)
From Verif Require Import Bytes.
Open Scope Z_scope.

Section Gunzip.
  Variable zs : Type.                                         (* z_stream *)
  Variable zinit : zs.                                        (* 43-44: inflateInit2(31) *)
  Variable inflate : zs -> bytes -> Z -> zs * nat * bytes * Z.

  Definition out_size : Z := 32768.                           (* 54 *)
  Record gunz := mkGz { g_z : zs; g_bad : bool }.             (* 92-94 *)
  Definition gunz0 : gunz := mkGz zinit false.                (* 41-45 *)

  (* 63-77: the loop; buf: _inflatedBuffer; None: the stream is bad *)
  Inductive Inflated : zs -> bytes -> bytes -> zs -> option bytes -> Prop :=
  | In_bad z i buf z' n out ret : inflate z i out_size = (z', n, out, ret) -> ret < 0 ->             (* 68-73 *)
      Inflated z i buf z' None
  | In_more z i buf z' n out ret z'' res : inflate z i out_size = (z', n, out, ret) -> 0 <= ret ->
      skipn n i <> [] -> blen out = out_size ->                                                      (* 77 *)
      Inflated z' (skipn n i) (buf ++ out) z'' res -> Inflated z i buf z'' res
  | In_done z i buf z' n out ret : inflate z i out_size = (z', n, out, ret) -> 0 <= ret ->
      skipn n i = [] \/ blen out <> out_size -> Inflated z i buf z' (Some (buf ++ out)).

  (* 52-89: transform *)
  Inductive Transform : gunz -> bytes -> gunz -> bytes -> Prop :=
  | Tr_bad z b : Transform (mkGz z true) b (mkGz z true) b                                           (* 68, 79-86 *)
  | Tr_fails z b z' : Inflated z b [] z' None -> Transform (mkGz z false) b (mkGz z' true) b         (* 71, 79-86 *)
  | Tr_ok z b z' out : Inflated z b [] z' (Some out) -> Transform (mkGz z false) b (mkGz z' false) out.

  (* a transformer fed with the pieces in order, and what it returned *)
  Inductive Feeds : gunz -> list bytes -> gunz -> list bytes -> Prop :=
  | Fd_nil g : Feeds g [] g []
  | Fd_cons g b g' out bs g'' outs : Transform g b g' out -> Feeds g' bs g'' outs -> Feeds g (b :: bs) g'' (out :: outs).
End Gunzip.
