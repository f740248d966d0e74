(** Specification of a port registry: a finite map from ids to ports. *)
From Coq Require Import List ZArith Bool.
From Verif Require Import Base RegistryModel.
Import ListNotations.
Open Scope Z_scope.

Section spec.
Context {A : Type}.
Definition upd {B} (m : Z -> B) (k : Z) (v : B) : Z -> B := fun j => if j =? k then v else m j.

(** The ports open at the moment. *)
Definition spec_step (m : Z -> option A) (o : rop A) : Z * (Z -> option A) :=
  match o with
  | Connect k legal a =>
      match m k with
      | Some _ => (-1, m)
      | None => if legal then (0, upd m k (Some a)) else (-1, m)
      end
  | Close k => match m k with Some _ => (0, upd m k None) | None => (-1, m) end
  | Use k f => match m k with
               | Some a => (fst (f a), upd m k (Some (snd (f a))))
               | None => (-1, m)
               end
  | Get k => (0, m)
  end.
Fixpoint spec_run (m : Z -> option A) (ops : list (rop A)) : list Z * (Z -> option A) :=
  match ops with
  | [] => ([], m)
  | o :: t => let (v, m1) := spec_step m o in let (vs, m2) := spec_run m1 t in (v :: vs, m2)
  end.

(** An operation on id k that is refused because k is not open (or its parameters are illegal). *)
Definition refused (m : Z -> option A) (k : Z) (o : rop A) : Prop :=
  m k = None /\
  match o with
  | Connect j legal _ => j = k /\ legal = false
  | Close j => j = k
  | Use j _ => j = k
  | Get _ => False
  end.
Definition closes (k : Z) (o : rop A) : Prop := match o with Close j => j = k | _ => False end.
End spec.
