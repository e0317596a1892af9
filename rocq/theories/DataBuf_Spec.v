(** Specification of the buffer for C08, C09: a FIFO queue of bounded capacity. *)
From Verif Require Import Base DataBuf_Model.

Section Spec.
Context {A : Type}.

(** [f_q] produced and not yet consumed values, oldest first; [f_held] size of
    the range the consumer holds; [f_pend] sizes claimed and not yet filled. *)
Record fifo := mkF { f_q : list A; f_held : option nat; f_pend : list nat }.

Definition total (l : list nat) : nat := fold_right Nat.add 0 l.

Fixpoint remove_first (n : nat) (l : list nat) : option (list nat) :=
  match l with
  | [] => None
  | x :: l' => if x =? n then Some l' else do r <- remove_first n l'; Some (x :: r)
  end.

(** [may_claim] says when a producer may ask for work. The result [None] means
    that the clients break the protocol. *)
Definition fifo_step (cap : nat) (may_claim : fifo -> bool) (f : fifo) (o : op A)
  : option (fifo * out A) :=
  match o with
  | Acquire n =>
      match f_held f with
      | None =>
          if (1 <=? n) && (n <=? length (f_q f))
          then Some (mkF (f_q f) (Some n) (f_pend f), OAcq true)
          else Some (f, OAcq false)
      | Some _ => None
      end
  | Read k =>
      match f_held f with
      | Some n => if k <? n then do v <- nth_error (f_q f) k; Some (f, OVal v) else None
      | None => None
      end
  | Release k =>
      match f_held f with
      | Some n => if (1 <=? k) && (k <=? n)
                  then Some (mkF (skipn k (f_q f)) None (f_pend f), OUnit) else None
      | None => None
      end
  | Claim n =>
      if (1 <=? n) && may_claim f then
        let r := Nat.min n (cap - (length (f_q f) + total (f_pend f))) in
        Some (mkF (f_q f) (f_held f) (if r =? 0 then f_pend f else r :: f_pend f), OClaim r)
      else None
  | Fill d =>
      do p <- remove_first (length d) (f_pend f);
      if 1 <=? length d then Some (mkF (f_q f ++ d) (f_held f) p, OUnit) else None
  end.

Fixpoint fifo_run cap may_claim (f : fifo) (os : list (op A)) : option (list (out A)) :=
  match os with
  | [] => Some []
  | o :: os' =>
      do (f', x) <- fifo_step cap may_claim f o;
      do xs <- fifo_run cap may_claim f' os'; Some (x :: xs)
  end.

Definition fifo_empty : fifo := mkF [] None [].

(** One producer: it asks for work only when it has nothing to fill. *)
Definition one_producer (f : fifo) : bool := match f_pend f with [] => true | _ => false end.

(** Several producers: nobody asks while the queue is empty and the claims
    already cover the whole capacity. *)
Definition not_all_claimed (cap : nat) (f : fifo) : bool :=
  negb ((length (f_q f) =? 0) && (total (f_pend f) =? cap)).

Definition any_producer (f : fifo) : bool := true.

(** State after a history; the same without the outputs. *)
Fixpoint fifo_after cap may_claim (f : fifo) (os : list (op A)) : option fifo :=
  match os with
  | [] => Some f
  | o :: os' => do (f', x) <- fifo_step cap may_claim f o; fifo_after cap may_claim f' os'
  end.

Fixpoint sys_after (s : sys A) (os : list (op A)) : option (sys A) :=
  match os with
  | [] => Some s
  | o :: os' => do (s', x) <- sys_step s o; sys_after s' os'
  end.

(** Cell [i] of the buffer belongs to the range handed to the consumer. *)
Definition in_range (r : range) (i : nat) : Prop :=
  (r_p1 r <= i /\ i < r_p1 r + r_n1 r) \/
  match r_p2 r with Some p => p <= i /\ i < p + r_n2 r | None => False end.
End Spec.
Arguments fifo : clear implicits.
