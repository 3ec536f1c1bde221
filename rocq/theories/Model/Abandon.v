(** What becomes of the sources of an iterator of expression/collections/seq.py when it is
    given up, ends or raises.  As Resume.v, and an iterator has two more operations: [drop],
    what happens when the last reference to it goes, and [leave], what happens when a
    generator that is suspended in [yield from] at it is closed: its close() is called, if it
    has one, and then the reference goes.  CPython: a generator without references is closed
    at once, and a closed generator drops what its frame holds; closing one that has not been
    started runs nothing of its body.  Exceptions raised while closing are not modelled, and
    the references that the traceback of an exception keeps for a while neither.  What
    closing a generator of the user does is any effect.  Definitions only. *)
From Coq Require Import List ZArith Bool.
From Verif.Model Require Import Base Gen OptionResult Resume.
Import ListNotations.
Local Open Scope py_scope.

CoInductive ogen (W A : Type) : Type := OGen (next : W -> rstep A (ogen W A) * W) (leave drop : W -> W).
Arguments OGen {W A}.
Definition onext {W A} (g : ogen W A) (w : W) : rstep A (ogen W A) * W :=
  match g with
  | OGen next _ _ => match next w with (RRaise StopIterationExn g, w) => (RStop g, w) | r => r end
  end.
Definition leave {W A} (g : ogen W A) : W -> W := match g with OGen _ leave _ => leave end.
Definition drop {W A} (g : ogen W A) : W -> W := match g with OGen _ _ drop => drop end.
Definition oiterable (W A : Type) : Type := M W (ogen W A).

(** A generator that has returned, raised or been closed. *)
CoFixpoint done {W A} : ogen W A := OGen (fun w => (RStop done, w)) (fun w => w) (fun w => w).
(** StopIteration leaves the body of a generator as RuntimeError. *)
Definition leaving_exn (e : exn) : exn := match e with StopIterationExn => RuntimeError | e => e end.

(** The iterator of a list or tuple: no close(), and nothing is held. *)
CoFixpoint o_list {W A} (xs : list A) : ogen W A :=
  OGen (fun w => (match xs with [] => RStop (o_list []) | x :: xs => RYield x (o_list xs) end, w)) (fun w => w) (fun w => w).
(** A generator function of the user: [enter; try: (the elements) finally: exit]. *)
CoFixpoint o_body {W A} (exit : W -> W) (ms : list (M W A)) : ogen W A :=
  OGen (fun w => match ms with
                 | [] => (RStop done, exit w)
                 | m :: ms => match m w with (Ret x, w) => (RYield x (o_body exit ms), w) | (Raise e, w) => (RRaise (leaving_exn e) done, exit w) end
                 end) exit exit.
Definition o_resource {W A} (enter exit : W -> W) (ms : list (M W A)) : ogen W A :=
  OGen (fun w => (RSkip (o_body exit ms), enter w)) (fun w => w) (fun w => w).

(** The start of a generator function that iterates [src]. *)
Definition o_opening {W A B} (src : oiterable W A) (loop : ogen W A -> ogen W B) : ogen W B :=
  OGen (fun w => match src w with (Ret g, w) => (RSkip (loop g), w) | (Raise e, w) => (RRaise (leaving_exn e) done, w) end) (fun w => w) (fun w => w).

Section Abandon.
  Context {W A B S : Type}.

  (** (x for x in it): seq.py:385-388 [Seq.__iter__], 420-423 [SeqGen.__iter__] *)
  CoFixpoint o_wrap (g : ogen W A) : ogen W A :=
    OGen (fun w => match onext g w with
                   | (RYield x g, w) => (RYield x (o_wrap g), w)
                   | (RSkip g, w) => (RSkip (o_wrap g), w)
                   | (RStop g, w) => (RStop done, drop g w)
                   | (RRaise e g, w) => (RRaise e done, drop g w)
                   end) (drop g) (drop g).

  (** seq.py:675-695 [map]; 335-344 [dict] *)
  CoFixpoint o_map_loop (f : A -> M W B) (g : ogen W A) : ogen W B :=
    OGen (fun w => match onext g w with
                   | (RYield x g, w) => match f x w with
                                        | (Ret y, w) => (RYield y (o_map_loop f g), w)
                                        | (Raise e, w) => (RRaise (leaving_exn e) done, drop g w)
                                        end
                   | (RSkip g, w) => (RSkip (o_map_loop f g), w)
                   | (RStop g, w) => (RStop done, drop g w)
                   | (RRaise e g, w) => (RRaise e done, drop g w)
                   end) (drop g) (drop g).

  (** seq.py:463-487 [collect]: [for xs in source: yield from mapping(xs)] *)
  CoFixpoint o_collect_loop (f : A -> M W (oiterable W B)) (inner : option (ogen W B)) (g : ogen W A) : ogen W B :=
    let give_up := fun w => match inner with None => drop g w | Some h => drop g (leave h w) end in
    OGen (fun w =>
      match inner with
      | None =>
          match onext g w with
          | (RYield x g, w) =>
              match f x w with
              | (Ret it, w) => match it w with
                               | (Ret h, w) => (RSkip (o_collect_loop f (Some h) g), w)
                               | (Raise e, w) => (RRaise (leaving_exn e) done, drop g w)
                               end
              | (Raise e, w) => (RRaise (leaving_exn e) done, drop g w)
              end
          | (RSkip g, w) => (RSkip (o_collect_loop f None g), w)
          | (RStop g, w) => (RStop done, drop g w)
          | (RRaise e g, w) => (RRaise e done, drop g w)
          end
      | Some h =>
          match onext h w with
          | (RYield y h, w) => (RYield y (o_collect_loop f (Some h) g), w)
          | (RSkip h, w) => (RSkip (o_collect_loop f (Some h) g), w)
          | (RStop h, w) => (RSkip (o_collect_loop f None g), drop h w)
          | (RRaise e h, w) => (RRaise e done, drop g (drop h w))
          end
      end) give_up give_up.

  (** seq.py:490-507 [concat], 426-437 [append]: [for it in iterables: yield from it] *)
  CoFixpoint o_concat_loop (inner : option (ogen W A)) (its : list (oiterable W A)) : ogen W A :=
    let give_up := fun w => match inner with None => w | Some h => leave h w end in
    OGen (fun w =>
      match inner with
      | None =>
          match its with
          | [] => (RStop done, w)
          | it :: its => match it w with (Ret h, w) => (RSkip (o_concat_loop (Some h) its), w) | (Raise e, w) => (RRaise (leaving_exn e) done, w) end
          end
      | Some h =>
          match onext h w with
          | (RYield y h, w) => (RYield y (o_concat_loop (Some h) its), w)
          | (RSkip h, w) => (RSkip (o_concat_loop (Some h) its), w)
          | (RStop h, w) => (RSkip (o_concat_loop None its), drop h w)
          | (RRaise e h, w) => (RRaise e done, drop h w)
          end
      end) give_up give_up.

  (** builtins.filter, seq.py:529-545: an object without close() that holds its source *)
  CoFixpoint o_filter_loop (p : A -> M W bool) (g : ogen W A) : ogen W A :=
    OGen (fun w => match onext g w with
                   | (RYield x g, w) =>
                       match p x w with
                       | (Ret b, w) => (if b : bool then RYield x (o_filter_loop p g) else RSkip (o_filter_loop p g), w)
                       | (Raise e, w) => (RRaise e (o_filter_loop p g), w)
                       end
                   | (RSkip g, w) => (RSkip (o_filter_loop p g), w)
                   | (RStop g, w) => (RStop (o_filter_loop p g), w)
                   | (RRaise e g, w) => (RRaise e (o_filter_loop p g), w)
                   end) (drop g) (drop g).

  (** itertools.accumulate, seq.py:282 and 848-864 [scan], for a state other than None *)
  CoFixpoint o_scan_loop (f : S -> A -> M W S) (s : S) (g : ogen W A) : ogen W S :=
    OGen (fun w => match onext g w with
                   | (RYield x g, w) =>
                       match f s x w with
                       | (Ret s, w) => (RYield s (o_scan_loop f s g), w)
                       | (Raise e, w) => (RRaise e (o_scan_loop f s g), w)
                       end
                   | (RSkip g, w) => (RSkip (o_scan_loop f s g), w)
                   | (RStop g, w) => (RStop (o_scan_loop f s g), w)
                   | (RRaise e g, w) => (RRaise e (o_scan_loop f s g), w)
                   end) (drop g) (drop g).
  Definition o_scan_start (f : S -> A -> M W S) (s : S) (g : ogen W A) : ogen W S :=
    OGen (fun w => (RYield s (o_scan_loop f s g), w)) (drop g) (drop g).

  (** builtins.zip, seq.py:369-383, 1035-1068 *)
  CoFixpoint o_zip_loop (x : option A) (g : ogen W A) (h : ogen W B) : ogen W (A * B) :=
    let give_up := fun w => drop h (drop g w) in
    OGen (fun w =>
      match x with
      | None =>
          match onext g w with
          | (RYield x g, w) => (RSkip (o_zip_loop (Some x) g h), w)
          | (RSkip g, w) => (RSkip (o_zip_loop None g h), w)
          | (RStop g, w) => (RStop (o_zip_loop None g h), w)
          | (RRaise e g, w) => (RRaise e (o_zip_loop None g h), w)
          end
      | Some x =>
          match onext h w with
          | (RYield y h, w) => (RYield (x, y) (o_zip_loop None g h), w)
          | (RSkip h, w) => (RSkip (o_zip_loop (Some x) g h), w)
          | (RStop h, w) => (RStop (o_zip_loop None g h), w)
          | (RRaise e h, w) => (RRaise e (o_zip_loop None g h), w)
          end
      end) give_up give_up.

  (** itertools.pairwise, seq.py:810-826: lets its source go when that raises or ends *)
  CoFixpoint o_pairwise_loop (prev : option A) (g : ogen W A) : ogen W (A * A) :=
    OGen (fun w => match onext g w with
                   | (RYield x g, w) => (match prev with
                                         | None => RSkip (o_pairwise_loop (Some x) g)
                                         | Some p => RYield (p, x) (o_pairwise_loop (Some x) g)
                                         end, w)
                   | (RSkip g, w) => (RSkip (o_pairwise_loop prev g), w)
                   | (RStop g, w) => (RStop done, drop g w)
                   | (RRaise e g, w) => (RRaise e done, drop g w)
                   end) (drop g) (drop g).

  (** seq.py:879-896 [skip] *)
  CoFixpoint o_skip_loop (count i : Z) (g : ogen W A) : ogen W A :=
    OGen (fun w => match onext g w with
                   | (RYield n g, w) => (if Z.leb count i then RYield n (o_skip_loop count (i + 1) g) else RSkip (o_skip_loop count (i + 1) g), w)
                   | (RSkip g, w) => (RSkip (o_skip_loop count i g), w)
                   | (RStop g, w) => (RStop done, drop g w)
                   | (RRaise e g, w) => (RRaise e done, drop g w)
                   end) (drop g) (drop g).

  (** seq.py:925-946 [take]: the [break] lets the source go *)
  CoFixpoint o_take_loop (count : Z) (after : option Z) (i : Z) (g : ogen W A) : ogen W A :=
    OGen (fun w =>
      match after with
      | Some j => if Z.eqb j (count - 1) then (RStop done, drop g w) else (RSkip (o_take_loop count None i g), w)
      | None =>
          match onext g w with
          | (RYield n g, w) => (RYield n (o_take_loop count (Some i) (i + 1) g), w)
          | (RSkip g, w) => (RSkip (o_take_loop count None i g), w)
          | (RStop g, w) => (RStop done, drop g w)
          | (RRaise e g, w) => (RRaise e done, drop g w)
          end
      end) (drop g) (drop g).

  (** seq.py:1008-1032 [unfold] *)
  CoFixpoint o_unfold (generator : S -> M W (option (A * S))) (state : S) : ogen W A :=
    OGen (fun w => match generator state w with
                   | (Ret (Some (item, state)), w) => (RYield item (o_unfold generator state), w)
                   | (Ret None, w) => (RStop done, w)
                   | (Raise e, w) => (RRaise (leaving_exn e) done, w)
                   end) (fun w => w) (fun w => w).
End Abandon.

(** The functions of seq.py, as in Resume.v.  What an iterable opens belongs to the iteration,
    except for [o_shared]. *)
Section Functions.
  Context {W A B S : Type}.
  Definition o_seq (src : oiterable W A) : oiterable W A := do g <- src; ret (o_wrap g).
  Definition o_map (f : A -> M W B) (src : oiterable W A) : oiterable W B := ret (o_wrap (o_opening src (o_map_loop f))).
  Definition o_collect (f : A -> M W (oiterable W B)) (src : oiterable W A) : oiterable W B := ret (o_wrap (o_opening src (o_collect_loop f None))).
  Definition o_concat (its : list (oiterable W A)) : oiterable W A := ret (o_wrap (o_concat_loop None its)).
  Definition o_skip (count : Z) (src : oiterable W A) : oiterable W A := ret (o_wrap (o_opening src (o_skip_loop count 0))).
  Definition o_take (count : Z) (src : oiterable W A) : oiterable W A :=
    if Z.ltb 0 count then ret (o_wrap (o_opening src (o_take_loop count None 0))) else ret (o_wrap (o_list [])).
  Definition o_pairwise (src : oiterable W A) : oiterable W (A * A) := do g <- src; ret (o_wrap (o_pairwise_loop None g)).
  Definition o_delay (generator : M W (oiterable W A)) : oiterable W A := do it <- generator; do g <- it; ret (o_wrap g).
  Definition o_dict (to_obj : A -> M W B) (src : oiterable W A) : oiterable W B := do g <- src; ret (o_map_loop to_obj g).
  Definition o_filter (p : A -> M W bool) (src : oiterable W A) : oiterable W A := do g <- src; ret (o_filter_loop p g).
  Definition o_scan (f : S -> A -> M W S) (s : S) (src : oiterable W A) : oiterable W S := do g <- src; ret (o_scan_start f s g).
  (** when the second source cannot be opened the first one is let go *)
  Definition o_zip (src1 : oiterable W A) (src2 : oiterable W B) : oiterable W (A * B) :=
    do g <- src1;
    fun w => match src2 w with (Ret h, w) => (Ret (o_zip_loop None g h), w) | (Raise e, w) => (Raise e, drop g w) end.
End Functions.
Definition o_choose {W A B} (chooser : A -> M W (option B)) (src : oiterable W A) : oiterable W B :=
  o_collect (fun x => do o <- chooser x; ret (ret (o_wrap (o_list (opt_to_list o))))) src.

(** An iterator that the user holds, kept in the first component of the world: [iter()] on it
    gives itself, and letting it go does nothing.  [is_generator]: it has close(). *)
CoFixpoint o_shared {W A} (is_generator : bool) : ogen (ogen W A * W) A :=
  OGen (fun '(g, w) => match onext g w with
                       | (RYield x g, w) => (RYield x (o_shared is_generator), (g, w))
                       | (RSkip g, w) => (RSkip (o_shared is_generator), (g, w))
                       | (RStop g, w) => (RStop (o_shared is_generator), (g, w))
                       | (RRaise e g, w) => (RRaise e (o_shared is_generator), (g, w))
                       end)
       (fun '(g, w) => if is_generator then (done, leave g w) else (g, w)) (fun s => s).
