(** Commands that wait for a commit: BedrockServer.cpp 172-240 (the sync loop) and 648-669 (runCommand).

    Both run under _futureCommitCommandMutex, so each is one step.  A command is an opaque item with the
    commit count it asks for and its timeout(), which does not change while it waits.  The loop re-reads the
    shutdown state before each command; reading it once gives the same result, because the commands passed
    before it changed are returned in either case. *)
From Verif Require Import Base Queue_Spec Queue_Model Future_Spec.

Section Future.
Context {A : Type}.

(** BedrockServer.h:379-382: _futureCommitCommands and _futureCommitCommandTimeouts. *)
Record future := mkFuture { f_wait : list (N * (A * N)); f_tmo : list (N * N) }.
Definition f_init : future := mkFuture [] [].

(** 186-208: everything that has timed out. *)
Fixpoint expire (now : N) (tmo : list (N * N)) (wait : list (N * (A * N))) : list A * list (N * (A * N)) * list (N * N) :=
  match tmo with
  | (t, c) :: rest =>
      if N.ltb t now then
        match take_match c t wait with
        | Some (x, wait') => let '(out, w, r) := expire now rest wait' in (x :: out, w, r)
        | None => expire now rest wait
        end
      else ([], wait, tmo)
  | [] => ([], wait, [])
  end.
(** 216-238: everything whose commit is there, or everything at shutdown. *)
Fixpoint reach (count : N) (sd : bool) (wait : list (N * (A * N))) (tmo : list (N * N)) : list A * list (N * (A * N)) * list (N * N) :=
  match wait with
  | (c, (x, t)) :: rest =>
      if N.leb c count || sd then let '(out, w, r) := reach count sd rest (drop_lookup t c tmo) in (x :: out, w, r)
      else ([], wait, tmo)
  | [] => ([], [], tmo)
  end.

Definition f_step (f : future) (o : fop A) : future * fout A :=
  match o with
  | Arrive x c d n =>          (* 654-669 *)
      if N.ltb n c then (mkFuture (mm_insert c (x, d) (f_wait f)) (mm_insert d c (f_tmo f)), Waits)
      else (f, Runs x)
  | Pass now n sd =>
      let '(o1, w1, t1) := expire now (f_tmo f) (f_wait f) in
      let '(o2, w2, t2) := reach n sd w1 t1 in
      (mkFuture w2 t2, Returns (o1 ++ o2))
  end.
Fixpoint f_run (f : future) (ops : list (fop A)) : future * list (fout A) :=
  match ops with
  | [] => (f, [])
  | o :: ops' => let (f1, out) := f_step f o in let (f2, outs) := f_run f1 ops' in (f2, out :: outs)
  end.
End Future.
Arguments future : clear implicits.
