(** Iterators of expression/collections/seq.py that are asked again after they raised or
    ended.  In Gen.v and Seq.v an iterator that has raised is not stepped again; here every
    outcome leaves an iterator behind.  A generator that has raised or ended is finished for
    good; builtins.filter, builtins.map, builtins.zip and itertools.accumulate are plain
    objects that keep the iterators of their sources and go on with these (CPython 3.10 to
    3.13).  Callbacks and sources are any.  Definitions only. *)
From Coq Require Import List ZArith Bool.
From Verif.Model Require Import Base Gen OptionResult.
From Verif.Model Require PyList.
Import ListNotations.
Local Open Scope py_scope.

(** One internal step, as [gstep] of Gen.v: the iterator left behind is there in all cases. *)
Inductive rstep (A G : Type) : Type := RYield (a : A) (g : G) | RSkip (g : G) | RStop (g : G) | RRaise (e : exn) (g : G).
Arguments RYield {A G}.  Arguments RSkip {A G}.  Arguments RStop {A G}.  Arguments RRaise {A G}.
CoInductive rgen (W A : Type) : Type := RGen (next : W -> rstep A (rgen W A) * W).
Arguments RGen {W A}.
(** A StopIteration that leaves an iterator is its end. *)
Definition rnext {W A} (g : rgen W A) (w : W) : rstep A (rgen W A) * W :=
  match g with
  | RGen next => match next w with (RRaise StopIterationExn g, w) => (RStop g, w) | r => r end
  end.
Definition riterable (W A : Type) : Type := M W (rgen W A).

(** A generator that has returned or raised. *)
CoFixpoint closed {W A} : rgen W A := RGen (fun w => (RStop closed, w)).
(** The exception [e] in the body of a generator: it leaves as it is, StopIteration as
    RuntimeError, and the generator is closed. *)
Definition gen_raise {W A} (e : exn) : rstep A (rgen W A) :=
  RRaise (match e with StopIterationExn => RuntimeError | e => e end) closed.

(** The iterator of a list or tuple. *)
CoFixpoint r_list {W A} (xs : list A) : rgen W A :=
  RGen (fun w => (match xs with [] => RStop (r_list []) | x :: xs => RYield x (r_list xs) end, w)).
(** An iterator of a class of the user: every [next()] is an effect that gives an element or
    raises, and it goes on after that. *)
CoFixpoint r_script {W A} (ms : list (M W A)) : rgen W A :=
  RGen (fun w => match ms with
                 | [] => (RStop (r_script []), w)
                 | m :: ms => match m w with (Ret x, w) => (RYield x (r_script ms), w) | (Raise e, w) => (RRaise e (r_script ms), w) end
                 end).

(** The start of a generator function that iterates [src]. *)
Definition r_opening {W A B} (src : riterable W A) (loop : rgen W A -> rgen W B) : rgen W B :=
  RGen (fun w => match src w with (Ret g, w) => (RSkip (loop g), w) | (Raise e, w) => (gen_raise e, w) end).

Section Resume.
  Context {W A B S : Type}.

  (** (x for x in it): seq.py:385-388 [Seq.__iter__], 420-423 [SeqGen.__iter__] *)
  CoFixpoint r_wrap (g : rgen W A) : rgen W A :=
    RGen (fun w => match rnext g w with
                   | (RYield x g, w) => (RYield x (r_wrap g), w)
                   | (RSkip g, w) => (RSkip (r_wrap g), w)
                   | (RStop _, w) => (RStop closed, w)
                   | (RRaise e _, w) => (RRaise e closed, w)
                   end).

  (** seq.py:675-695 [map]; 335-344 [dict] *)
  CoFixpoint r_map_loop (f : A -> M W B) (g : rgen W A) : rgen W B :=
    RGen (fun w => match rnext g w with
                   | (RYield x g, w) => match f x w with (Ret y, w) => (RYield y (r_map_loop f g), w) | (Raise e, w) => (gen_raise e, w) end
                   | (RSkip g, w) => (RSkip (r_map_loop f g), w)
                   | (RStop _, w) => (RStop closed, w)
                   | (RRaise e _, w) => (RRaise e closed, w)
                   end).

  (** seq.py:463-487 [collect]; [inner]: the iterator of the current [yield from] *)
  CoFixpoint r_collect_loop (f : A -> M W (riterable W B)) (inner : option (rgen W B)) (g : rgen W A) : rgen W B :=
    RGen (fun w =>
      match inner with
      | None =>
          match rnext g w with
          | (RYield x g, w) =>
              match f x w with
              | (Ret it, w) => match it w with (Ret h, w) => (RSkip (r_collect_loop f (Some h) g), w) | (Raise e, w) => (gen_raise e, w) end
              | (Raise e, w) => (gen_raise e, w)
              end
          | (RSkip g, w) => (RSkip (r_collect_loop f None g), w)
          | (RStop _, w) => (RStop closed, w)
          | (RRaise e _, w) => (RRaise e closed, w)
          end
      | Some h =>
          match rnext h w with
          | (RYield y h, w) => (RYield y (r_collect_loop f (Some h) g), w)
          | (RSkip h, w) => (RSkip (r_collect_loop f (Some h) g), w)
          | (RStop _, w) => (RSkip (r_collect_loop f None g), w)
          | (RRaise e _, w) => (RRaise e closed, w)
          end
      end).

  (** seq.py:490-507 [concat], 426-437 [append] *)
  CoFixpoint r_concat_loop (inner : option (rgen W A)) (its : list (riterable W A)) : rgen W A :=
    RGen (fun w =>
      match inner with
      | None =>
          match its with
          | [] => (RStop closed, w)
          | it :: its => match it w with (Ret h, w) => (RSkip (r_concat_loop (Some h) its), w) | (Raise e, w) => (gen_raise e, w) end
          end
      | Some h =>
          match rnext h w with
          | (RYield y h, w) => (RYield y (r_concat_loop (Some h) its), w)
          | (RSkip h, w) => (RSkip (r_concat_loop (Some h) its), w)
          | (RStop _, w) => (RSkip (r_concat_loop None its), w)
          | (RRaise e _, w) => (RRaise e closed, w)
          end
      end).

  (** builtins.filter, seq.py:529-545 *)
  CoFixpoint r_filter_loop (p : A -> M W bool) (g : rgen W A) : rgen W A :=
    RGen (fun w => match rnext g w with
                   | (RYield x g, w) =>
                       match p x w with
                       | (Ret b, w) => (if b : bool then RYield x (r_filter_loop p g) else RSkip (r_filter_loop p g), w)
                       | (Raise e, w) => (RRaise e (r_filter_loop p g), w)
                       end
                   | (RSkip g, w) => (RSkip (r_filter_loop p g), w)
                   | (RStop g, w) => (RStop (r_filter_loop p g), w)
                   | (RRaise e g, w) => (RRaise e (r_filter_loop p g), w)
                   end).

  (** itertools.accumulate, seq.py:282 and 848-864 [scan], for a state other than None: the
      total is kept when the scanner raises *)
  CoFixpoint r_scan_loop (f : S -> A -> M W S) (s : S) (g : rgen W A) : rgen W S :=
    RGen (fun w => match rnext g w with
                   | (RYield x g, w) =>
                       match f s x w with
                       | (Ret s, w) => (RYield s (r_scan_loop f s g), w)
                       | (Raise e, w) => (RRaise e (r_scan_loop f s g), w)
                       end
                   | (RSkip g, w) => (RSkip (r_scan_loop f s g), w)
                   | (RStop g, w) => (RStop (r_scan_loop f s g), w)
                   | (RRaise e g, w) => (RRaise e (r_scan_loop f s g), w)
                   end).

  (** builtins.zip, seq.py:369-383, 1035-1068: an element of the first source whose partner
      does not come is dropped *)
  CoFixpoint r_zip_loop (x : option A) (g : rgen W A) (h : rgen W B) : rgen W (A * B) :=
    RGen (fun w =>
      match x with
      | None =>
          match rnext g w with
          | (RYield x g, w) => (RSkip (r_zip_loop (Some x) g h), w)
          | (RSkip g, w) => (RSkip (r_zip_loop None g h), w)
          | (RStop g, w) => (RStop (r_zip_loop None g h), w)
          | (RRaise e g, w) => (RRaise e (r_zip_loop None g h), w)
          end
      | Some x =>
          match rnext h w with
          | (RYield y h, w) => (RYield (x, y) (r_zip_loop None g h), w)
          | (RSkip h, w) => (RSkip (r_zip_loop (Some x) g h), w)
          | (RStop h, w) => (RStop (r_zip_loop None g h), w)
          | (RRaise e h, w) => (RRaise e (r_zip_loop None g h), w)
          end
      end).

  (** itertools.pairwise, seq.py:810-826: gives up its source when that raises or ends *)
  CoFixpoint r_pairwise_loop (prev : option A) (g : rgen W A) : rgen W (A * A) :=
    RGen (fun w => match rnext g w with
                   | (RYield x g, w) => (match prev with
                                         | None => RSkip (r_pairwise_loop (Some x) g)
                                         | Some p => RYield (p, x) (r_pairwise_loop (Some x) g)
                                         end, w)
                   | (RSkip g, w) => (RSkip (r_pairwise_loop prev g), w)
                   | (RStop _, w) => (RStop closed, w)
                   | (RRaise e _, w) => (RRaise e closed, w)
                   end).

  (** seq.py:879-896 [skip] *)
  CoFixpoint r_skip_loop (count i : Z) (g : rgen W A) : rgen W A :=
    RGen (fun w => match rnext g w with
                   | (RYield n g, w) => (if Z.leb count i then RYield n (r_skip_loop count (i + 1) g) else RSkip (r_skip_loop count (i + 1) g), w)
                   | (RSkip g, w) => (RSkip (r_skip_loop count i g), w)
                   | (RStop _, w) => (RStop closed, w)
                   | (RRaise e _, w) => (RRaise e closed, w)
                   end).

  (** seq.py:925-946 [take] *)
  CoFixpoint r_take_loop (count : Z) (after : option Z) (i : Z) (g : rgen W A) : rgen W A :=
    RGen (fun w =>
      match after with
      | Some j => (if Z.eqb j (count - 1) then RStop closed else RSkip (r_take_loop count None i g), w)
      | None =>
          match rnext g w with
          | (RYield n g, w) => (RYield n (r_take_loop count (Some i) (i + 1) g), w)
          | (RSkip g, w) => (RSkip (r_take_loop count None i g), w)
          | (RStop _, w) => (RStop closed, w)
          | (RRaise e _, w) => (RRaise e closed, w)
          end
      end).

  (** seq.py:1008-1032 [unfold] *)
  CoFixpoint r_unfold (generator : S -> M W (option (A * S))) (state : S) : rgen W A :=
    RGen (fun w => match generator state w with
                   | (Ret (Some (item, state)), w) => (RYield item (r_unfold generator state), w)
                   | (Ret None, w) => (RStop closed, w)
                   | (Raise e, w) => (gen_raise e, w)
                   end).

  (** builtins.map over itertools.count, seq.py:624-651 [init_infinite] *)
  CoFixpoint r_infinite_loop (f : Z -> M W A) (i : Z) : rgen W A :=
    RGen (fun w => match f i w with
                   | (Ret y, w) => (RYield y (r_infinite_loop f (i + 1)), w)
                   | (Raise e, w) => (RRaise e (r_infinite_loop f (i + 1)), w)
                   end).
End Resume.

(** The functions of seq.py; a result that is a SeqGen is wrapped when it is iterated. *)
Section Functions.
  Context {W A B S : Type}.
  Definition r_map (f : A -> M W B) (src : riterable W A) : riterable W B := ret (r_wrap (r_opening src (r_map_loop f))).
  Definition r_collect (f : A -> M W (riterable W B)) (src : riterable W A) : riterable W B := ret (r_wrap (r_opening src (r_collect_loop f None))).
  Definition r_concat (its : list (riterable W A)) : riterable W A := ret (r_wrap (r_concat_loop None its)).
  Definition r_skip (count : Z) (src : riterable W A) : riterable W A := ret (r_wrap (r_opening src (r_skip_loop count 0))).
  Definition r_take (count : Z) (src : riterable W A) : riterable W A :=
    if Z.ltb 0 count then ret (r_wrap (r_opening src (r_take_loop count None 0))) else ret (r_wrap (r_list [])).
  Definition r_pairwise (src : riterable W A) : riterable W (A * A) := do g <- src; ret (r_wrap (r_pairwise_loop None g)).
  Definition r_delay (generator : M W (riterable W A)) : riterable W A := do it <- generator; do g <- it; ret (r_wrap g).
  (** seq.py:335-344: a generator expression, so a one-shot iterator *)
  Definition r_dict (to_obj : A -> M W B) (src : riterable W A) : M W (rgen W B) := do g <- src; ret (r_map_loop to_obj g).
  (** filter, scan and zip give the object itself *)
  Definition r_filter (p : A -> M W bool) (src : riterable W A) : M W (rgen W A) := do g <- src; ret (r_filter_loop p g).
  Definition r_scan (f : S -> A -> M W S) (s : S) (src : riterable W A) : M W (rgen W S) :=
    do g <- src; ret (RGen (fun w => (RYield s (r_scan_loop f s g), w))).
  Definition r_zip (src1 : riterable W A) (src2 : riterable W B) : M W (rgen W (A * B)) :=
    do g <- src1; do h <- src2; ret (r_zip_loop None g h).
  Definition r_infinite (f : Z -> M W A) : riterable W A := ret (r_infinite_loop f 0).
End Functions.
Definition r_choose {W A B} (chooser : A -> M W (option B)) (src : riterable W A) : riterable W B :=
  r_collect (fun x => do o <- chooser x; ret (ret (r_wrap (r_list (opt_to_list o))))) src.

(** An iterator object kept in the first component of the world, as [shared] of Gen.v:
    [iter()] on it gives itself. *)
CoFixpoint r_shared_gen {W A} : rgen (rgen W A * W) A :=
  RGen (fun '(g, w) => match rnext g w with
                       | (RYield x g, w) => (RYield x r_shared_gen, (g, w))
                       | (RSkip g, w) => (RSkip r_shared_gen, (g, w))
                       | (RStop g, w) => (RStop r_shared_gen, (g, w))
                       | (RRaise e g, w) => (RRaise e r_shared_gen, (g, w))
                       end).
(** Seq(filter(...)): every iteration is a new generator over the same object. *)
Definition seq_of_object {W A} : riterable (rgen W A * W) A := ret (r_wrap r_shared_gen).
