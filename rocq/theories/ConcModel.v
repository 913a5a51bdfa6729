(** Model of FsCache.ensure (elsie/utils/cache.py:39-60) used by several threads: the steps of
    every thread between which the others may run. *)
From Coq Require Import List Arith Bool.
From Verif Require Import Py.
Import ListNotations.

(** Cache entries (the names of the files). *)
Definition key := nat.
Definition kmem (f : key) (l : list key) : bool := existsb (Nat.eqb f) l.

(** Where a thread is; [ks] are the entries that it will ask for later.  The part under the
    lock in lines 42-51 is one step, and so is the one in lines 56-59: all that others can do
    in between without the lock is line 54, and each of the two parts looks at in_progress only
    once.  A condition (line 53) is a number. *)
Inductive pc :=
| Ready (ks : list key)                      (* before line 42 for the first of ks; done if [] *)
| Mark (f : key) (ks : list key)             (* after line 51, before line 54 *)
| Build (f : key) (c : nat) (ks : list key)  (* in the constructor, line 55 *)
| Wait (f : key) (c : nat) (ks : list key)   (* in condition.wait(), line 47 *)
| Woken (f : key) (ks : list key)            (* notified, before line 48 *)
| Stopped (e : exn).                         (* an exception left the thread *)

(** What is observed. *)
Inductive cevent :=
| CStart (i : nat) (f : key)   (* thread i calls the constructor for f *)
| CEnd (i : nat) (f : key)     (* that call returns *)
| CReturn (i : nat) (f : key). (* ensure returns the path of f to thread i *)

(** cache_files, in_progress, the threads; [cs_next] numbers the conditions.  The log is newest
    first. *)
Record cstate := mkCS {
  cs_known : list key; cs_progress : list (key * nat); cs_next : nat;
  cs_threads : list pc; cs_log : list cevent }.

Fixpoint pget (p : list (key * nat)) (f : key) : option nat :=
  match p with [] => None | (g, c) :: p' => if Nat.eqb g f then Some c else pget p' f end.
Definition pdel (p : list (key * nat)) (f : key) : list (key * nat) :=
  filter (fun e => negb (Nat.eqb (fst e) f)) p.
(** in_progress[f] = c. *)
Definition pset (p : list (key * nat)) (f : key) (c : nat) : list (key * nat) := (f, c) :: pdel p f.
Fixpoint set_pc (ts : list pc) (i : nat) (p : pc) : list pc :=
  match ts, i with
  | [], _ => []
  | _ :: ts', O => p :: ts'
  | t :: ts', S i' => t :: set_pc ts' i' p
  end.
(** condition.notify_all() (line 59). *)
Definition wake (c : nat) (p : pc) : pc :=
  match p with
  | Wait f c' ks => if Nat.eqb c c' then Woken f ks else p
  | _ => p
  end.

(** The next step of thread [i]; None if it has none (done, or waiting). *)
Definition cstep (s : cstate) (i : nat) : option cstate :=
  match nth_error (cs_threads s) i with
  | Some (Ready (f :: ks)) =>   (* lines 42-51 *)
      match pget (cs_progress s) f with
      | Some c => Some (mkCS (cs_known s) (cs_progress s) (cs_next s)
                             (set_pc (cs_threads s) i (Wait f c ks)) (cs_log s))
      | None =>
          if kmem f (cs_known s)
          then Some (mkCS (cs_known s) (cs_progress s) (cs_next s)
                          (set_pc (cs_threads s) i (Ready ks)) (CReturn i f :: cs_log s))
          else Some (mkCS (cs_known s) (cs_progress s) (cs_next s)
                          (set_pc (cs_threads s) i (Mark f ks)) (cs_log s))
      end
  | Some (Mark f ks) =>         (* lines 53-54 *)
      Some (mkCS (cs_known s) (pset (cs_progress s) f (cs_next s)) (S (cs_next s))
                 (set_pc (cs_threads s) i (Build f (cs_next s) ks)) (CStart i f :: cs_log s))
  | Some (Build f c ks) =>      (* lines 56-60 *)
      match pget (cs_progress s) f with
      | None => Some (mkCS (f :: cs_known s) (cs_progress s) (cs_next s)
                           (set_pc (cs_threads s) i (Stopped EKey)) (CEnd i f :: cs_log s))
      | Some _ => Some (mkCS (f :: cs_known s) (pdel (cs_progress s) f) (cs_next s)
                             (map (wake c) (set_pc (cs_threads s) i (Ready ks)))
                             (CReturn i f :: CEnd i f :: cs_log s))
      end
  | Some (Woken f ks) =>        (* lines 48-49 *)
      if kmem f (cs_known s)
      then Some (mkCS (cs_known s) (cs_progress s) (cs_next s)
                      (set_pc (cs_threads s) i (Ready ks)) (CReturn i f :: cs_log s))
      else Some (mkCS (cs_known s) (cs_progress s) (cs_next s)
                      (set_pc (cs_threads s) i (Stopped EAssertion)) (cs_log s))
  | _ => None
  end.
(** The constructor of thread [i] raises. *)
Definition cfail (s : cstate) (i : nat) : option cstate :=
  match nth_error (cs_threads s) i with
  | Some (Build f c ks) =>
      Some (mkCS (cs_known s) (cs_progress s) (cs_next s)
                 (set_pc (cs_threads s) i (Stopped EException)) (cs_log s))
  | _ => None
  end.

(** A schedule: whose turn it is, and whether its constructor raises. *)
Fixpoint crun (s : cstate) (sch : list (nat * bool)) : option cstate :=
  match sch with
  | [] => Some s
  | (i, fails) :: sch' =>
      match (if fails then cfail s i else cstep s i) with
      | Some s' => crun s' sch'
      | None => None
      end
  end.
(** Threads that will ask for the given entries; [known] is in the cache already. *)
Definition cinit (known : list key) (reqs : list (list key)) : cstate :=
  mkCS known [] 0 (map Ready reqs) [].
