(** * Words for several runs at the same time.

    No proofs in this file. *)

From Coq Require Import String Ascii List Bool Arith.
From Verif Require Import Str Xml Utils Base Ramrod Cli Spec Disk SpecDisk DiskNs SpecDiskNs Jobs.
Import ListNotations.
Local Open Scope string_scope.
Local Open Scope list_scope.

(** A call of one of the two tools. *)
Inductive call :=
| Updating (parse : string -> option tree) (serialise : tree -> string) (o : oracle) (c : command) (s : st)
| Renaming (parse : string -> option tree) (serialise : bool -> tree -> string) (stdin : string) (c : ns_command).

(** The process of a call, and its run when nothing else runs (Disk.v, DiskNs.v:
    C67 and C68 are about these). *)
Definition started (c : call) : process :=
  match c with
  | Updating parse z o c s => start_tool parse z o c s
  | Renaming parse z stdin c => start_ns parse z stdin c
  end.
Definition alone (c : call) (n : nat -> weather) (d : disk) : finish * world :=
  match c with
  | Updating parse z o c s => tool parse z o c n d s
  | Renaming parse z stdin c => ns_tool parse z stdin c n d
  end.

(** The files a call names, to read and to write. *)
Definition reads (c : call) (f : string) : Prop :=
  match c with
  | Updating _ _ _ c _ => c_infile c = f
  | Renaming _ _ _ c => consulted c f
  end.
Definition writes (c : call) (f : string) : Prop :=
  match c with
  | Updating _ _ _ c _ => given (c_outfile c) = Some f
  | Renaming _ _ _ _ => False
  end.

(** No other call writes what call [i] reads or writes. *)
Definition unshared (cs : list call) (i : nat) : Prop := forall c j c' f,
  nth_error cs i = Some c -> nth_error cs j = Some c' -> j <> i -> writes c' f -> ~ reads c f /\ ~ writes c f.

(** The machine at the start, and after a schedule. *)
Definition machine_of (d : disk) (cs : list call) : machine := Machine d (map started cs).
Definition after_all (d : disk) (cs : list call) (schedule : list (nat * weather)) : machine := play schedule (machine_of d cs).

Definition finished (p : process) (fin : finish) : Prop := p_left p = Stop fin.
Definition unfinished (p : process) : Prop := forall fin, p_left p <> Stop fin.

(** What a process has printed so far. *)
Definition output (p : process) : list piece := flat_map (fun e => match e with Print x => [x] | _ => [] end) (p_done p).

(** Nothing goes wrong outside. *)
Definition all_fine (schedule : list (nat * weather)) : Prop := forall c, In c schedule -> snd c = Fine.

(** An endless schedule, in which no process is forgotten. *)
Definition first (k : nat) (sigma : nat -> nat * weather) : list (nat * weather) := map sigma (seq 0 k).
Definition fair (sigma : nat -> nat * weather) (size : nat) : Prop :=
  forall i k, (i < size)%nat -> exists k', (k <= k')%nat /\ fst (sigma k') = i.
