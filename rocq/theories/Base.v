(** Common definitions of the model: outcomes of Go calls.

    A Go call either returns normally ([Ok]), panics ([Panic]), or never returns
    ([Diverge]; in the model: the fuel of a traversal ran out).  The Go state after a panic
    is not modelled. *)
From Coq Require Export ZArith Lia.
From stdpp Require Export base list gmap strings sets sorting.

Inductive res (A : Type) : Type :=
| Ok (a : A)
| Panic
| Diverge.
Global Arguments Ok {_} _.
Global Arguments Panic {_}.
Global Arguments Diverge {_}.

Definition rbind {A B} (r : res A) (f : A -> res B) : res B :=
  match r with Ok a => f a | Panic => Panic | Diverge => Diverge end.

Notation "'let!' x := r 'in' k" := (rbind r (fun x => k))
  (at level 200, x pattern, r at level 100, k at level 200, right associativity).

(** [foldr]-style map in the result monad, left to right. *)
Fixpoint rmap {A B} (f : A -> res B) (l : list A) : res (list B) :=
  match l with
  | [] => Ok []
  | x :: r => let! y := f x in let! ys := rmap f r in Ok (y :: ys)
  end.

(** Left fold in the result monad: a Go [for ... range] loop whose body may panic. *)
Fixpoint rfold {A S} (f : S -> A -> res S) (l : list A) (s : S) : res S :=
  match l with
  | [] => Ok s
  | x :: r => let! s' := f s x in rfold f r s'
  end.

Lemma rbind_Ok_inv {A B} (r : res A) (f : A -> res B) (b : B) :
  rbind r f = Ok b -> exists a, r = Ok a /\ f a = Ok b.
Proof. destruct r; simpl; intros H; try discriminate. eauto. Qed.
