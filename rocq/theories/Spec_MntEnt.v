(** What to expect of getDiskInfos in several threads. *)
From Verif Require Import Base CTypes StringUtils Network Disks MntEnt.

(** about to ask for an entry, which writes the shared object *)
Definition fetching (c : mnt_call) : Prop := exists rest m l, c = MNext rest m l.
(** in the middle of an entry: about to read the shared object *)
Definition reading (c : mnt_call) : Prop :=
  (exists rest m l, c = MCopy rest m l) \/ (exists name rest m l, c = MUuid name rest m l \/ c = MLabel name rest m l).
(** A data race: two threads are about to access the object, one of them to write. *)
Definition mnt_race (pool : list mnt_call) : Prop :=
  exists i j p q, i <> j /\ nth_error pool i = Some p /\ nth_error pool j = Some q /\ fetching p /\ (fetching q \/ reading q).
(** No thread asks for an entry while another is in the middle of one. *)
Definition undisturbed (schedule : list (nat * bytes)) (shared : bytes) (pool : list mnt_call) : Prop :=
  forall before i left_ after, schedule = before ++ (i, left_) :: after ->
  let now := snd (mnt_run before shared pool) in
  forall c, nth_error now i = Some c -> fetching c ->
  forall j d, j <> i -> nth_error now j = Some d -> ~ reading d.
(** the number of entries of /etc/fstab *)
Definition entries_of (env : disk_env) : nat := match de_fstab env with Some es => length es | None => 0 end.
(** the same disk, with or without the mark *)
Definition same_or_marked (d d' : disk) : Prop := d' = d \/ d' = set_preferred d.
