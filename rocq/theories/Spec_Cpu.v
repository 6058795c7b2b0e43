(** What a processor says about itself. *)
From Verif Require Import Base CpuInfo.

(** registers have 32 bits *)
Definition is32 (n : N) : Prop := (n < 4294967296)%N.
Definition answers32 (c : cpu) : Prop := forall leaf, is32 (r_eax (c leaf)) /\ is32 (r_ebx (c leaf)) /\ is32 (r_ecx (c leaf)) /\ is32 (r_edx (c leaf)).
(** four characters packed in a register, the first one lowest *)
Definition packs (w : bytes) (n : N) : Prop :=
  exists a b c d, w = [a; b; c; d] /\ n = (N_of_ascii a + 256 * N_of_ascii b + 65536 * N_of_ascii c + 16777216 * N_of_ascii d)%N.
Definition spells (s : bytes) (ns : list N) : Prop := exists ws, s = concat ws /\ Forall2 packs ws ns.
(** leaves 0, 1, ... and 2^31, 2^31 + 1, ...: the first of each range names the last one *)
Definition range_of (leaf : N) : N := if N.ltb leaf 2147483648 then 0%N else 2147483648%N.
Definition supports (c : cpu) (leaf : N) : Prop := let h := r_eax (c (range_of leaf)) in h <> 0%N /\ (leaf <= h)%N.
(** the 48 characters of the brand string *)
Definition brand_words (c : cpu) : list N :=
  flat_map (fun leaf => [r_eax (c leaf); r_ebx (c leaf); r_ecx (c leaf); r_edx (c leaf)]) [2147483650; 2147483651; 2147483652]%N.
(** the processor is called [name]: NUL padded to 48 characters *)
Definition called (c : cpu) (name : bytes) : Prop :=
  supports c 2147483652 /\ ~ In NUL name /\ length name <= 48 /\ spells (name ++ repeat NUL (48 - length name)) (brand_words c).
