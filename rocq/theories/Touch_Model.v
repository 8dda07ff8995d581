(** Model of VMTouch.cpp, which main.cpp 351-355 runs for -checkDBMemoryMapping and -setDBMemoryMapping.
    Numbers are unbounded here; in the code they are 64 bit and far smaller. *)
From Verif Require Import Base Touch_Spec.

Section Touch.
  (** sysconf(_SC_PAGESIZE) and thread::hardware_concurrency() *)
  Variable pagesize threads : nat.

  (** VMTouch.cpp 21-28 *)
  Definition bytes2pages (bytes : nat) : nat := bytes / pagesize + (if Nat.eqb (bytes mod pagesize) 0 then 0 else 1).

  (** 119, 155 *)
  Definition per_thread (pages : nat) : nat := pages / threads + 1.
  (** 123-125, 158-161: the pages that thread [i] looks at, in order; none if the first is behind the last *)
  Definition range (pages limit i : nat) : list nat :=
    let first := per_thread pages * i in
    let last := Nat.min (first + per_thread pages) limit in
    seq first (last - first).
  (** 121-133: the pages that thread [i] reads *)
  Definition thread_touches (resident : nat -> bool) (pages i : nat) : list nat :=
    filter (fun j => negb (resident j)) (range pages (pages - 1) i).
  Definition touches (resident : nat -> bool) (pages : nat) : list (list nat) := map (thread_touches resident pages) (seq 0 threads).
  (** 157-167: what thread [i] adds to the total *)
  Definition thread_count (resident : nat -> bool) (pages i : nat) : nat :=
    length (filter resident (range pages pages i)).
  (** 153, 166: the total is atomic; [order]: the threads in the order in which they add *)
  Definition count (resident : nat -> bool) (pages : nat) (order : list nat) : nat :=
    fold_left (fun total i => total + thread_count resident pages i) order 0.

  (** 179-189: what is released when an exception is thrown; mem is MAP_FAILED, not null, if the file could not be mapped *)
  Definition cleanup (mem : option bool) (fd : bool) : list event :=
    match mem with None => [] | Some true => [Unmapped] | Some false => [Unmapped_nothing] end ++ (if fd then [Closed] else []).

  (** 46-190.  [before] and [after]: what mincore says at first and after touching.  Not modelled: the texts that are printed. *)
  Definition check (s : system) (touch : bool) (before after : nat -> bool) (order : list nat) : outcome * list event :=
    if negb (open_first s || open_denied s && open_second s) then (Skipped, cleanup None false)          (* 60-70 *)
    else if negb (stat_ok s) then (Skipped, Opened :: cleanup None true)                                  (* 72-76 *)
    else if block_device s && negb (ioctl_ok s) then (Skipped, Opened :: cleanup None true)               (* 78-85 *)
    else if Nat.eqb (size s) 0 then (Skipped, Opened :: cleanup None true)                                (* 87-89 *)
    else if negb (map_ok s) then (Skipped, Opened :: cleanup (Some false) true)                           (* 91-96 *)
    else if negb (aligned s) then (Aborted, [Opened; Mapped])                                             (* 98-100 *)
    else
      let pages := bytes2pages (size s) in                                                                (* 102 *)
      if negb (alloc_ok s) || negb (lookup_ok s) then (Aborted, [Opened; Mapped])                         (* 104-111: mincore fails with a null pointer *)
      else if Nat.eqb threads 0 then (Undefined, [Opened; Mapped])                                        (* 119, 155 *)
      else if touch && negb (lookup2_ok s) then (Aborted, [Opened; Mapped])                               (* 139-141 *)
      else (Report (count (if touch then after else before) pages order), [Opened; Mapped]).              (* 151-178 *)
End Touch.
