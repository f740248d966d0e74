(** Specification of the OBC's UART channels: per port id two byte queues. *)
From Coq Require Import List Arith ZArith Bool.
From Verif Require Import Base RingBufferModel RingBufferSpec ObcModel.
Import ListNotations.

Section S.
Context {A : Type}.

(** A channel: (size parameter, unread bytes) for each direction. *)
Record chan : Type := mkChan { to_compo : nat * list A; to_obc : nat * list A }.
Definition chans := Z -> option chan.
Definition put (t : chans) (id : Z) (c : option chan) : chans :=
  fun i => if Z.eqb i id then c else t i.
Definition size_or_default (n : nat) : nat := match n with 0 => 1024 | _ => n end.

Definition spec_step (t : chans) (o : oop A) : chans * ret A :=
  match o with
  | Connect id tx rx =>
      match t id with
      | Some _ => (t, Code (-1))
      | None => (put t id (Some (mkChan (size_or_default rx, []) (size_or_default tx, []))), Code 0)
      end
  | Close id => match t id with None => (t, Code (-1)) | Some _ => (put t id None, Code 0) end
  | SendFromObc id s f l =>
      match t id with
      | None => (t, Code (-1))
      | Some c => let (q, x) := q_step (fst (to_compo c)) (snd (to_compo c)) (OWrite s f l) in
                  (put t id (Some (mkChan (fst (to_compo c), q) (to_obc c))), Xfer x)
      end
  | ReceivedByCompo id d f l =>
      match t id with
      | None => (t, Code (-1))
      | Some c => let (q, x) := q_step (fst (to_compo c)) (snd (to_compo c)) (ORead d f l) in
                  (put t id (Some (mkChan (fst (to_compo c), q) (to_obc c))), Xfer x)
      end
  | SendFromCompo id s f l =>
      match t id with
      | None => (t, Code (-1))
      | Some c => let (q, x) := q_step (fst (to_obc c)) (snd (to_obc c)) (OWrite s f l) in
                  (put t id (Some (mkChan (to_compo c) (fst (to_obc c), q))), Xfer x)
      end
  | ReceivedByObc id d f l =>
      match t id with
      | None => (t, Code (-1))
      | Some c => let (q, x) := q_step (fst (to_obc c)) (snd (to_obc c)) (ORead d f l) in
                  (put t id (Some (mkChan (to_compo c) (fst (to_obc c), q))), Xfer x)
      end
  end.

Fixpoint spec_run (t : chans) (ops : list (oop A)) : list (ret A) :=
  match ops with
  | [] => []
  | o :: os => let (t', x) := spec_step t o in x :: spec_run t' os
  end.

(** The caller passes buffers that are large enough. *)
Definition buffers_ok (o : oop A) : Prop :=
  match o with
  | SendFromObc _ s f l | SendFromCompo _ s f l => f + l <= length s
  | ReceivedByCompo _ d f l | ReceivedByObc _ d f l => f + l <= length d
  | _ => True
  end.

(** The UART port [u] was brought about by some history after which [qt] is unread on the
    way to the component and [qr] on the way to the OBC; [nt], [nr] are the buffer sizes. *)
Definition holds (u : uart A) (nt : nat) (qt : list A) (nr : nat) (qr : list A) : Prop :=
  exists rc tc ops outs,
    length tc = nt /\ length rc = nr /\ 0 < nt /\ 0 < nr /\ Forall in_bounds (map snd ops) /\
    uart_run (make_uart rc tc) ops = Ok (u, outs) /\
    qt = fst (q_run nt [] (on_side Tx ops)) /\
    qr = fst (q_run nr [] (on_side Rx ops)).
End S.
