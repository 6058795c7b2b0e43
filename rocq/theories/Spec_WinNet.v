(** Network adapters of a Windows machine. *)
From Verif Require Import Base Network WinNetwork.
From Coq Require Import Permutation Sorted.

(** ** Addresses in text *)
Definition digit (c : ascii) : Prop := 48 <= nat_of_ascii c <= 57.
(** the number a sequence of digits stands for (none: 0) *)
Definition number (d : bytes) : N := fold_left (fun n c => (10 * n + (N_of_ascii c - 48))%N) d 0%N.
Definition low_byte (n : N) : ascii := ascii_of_N (n mod 256).
(** groups of digits with one other character between two of them *)
Definition grouped (d0 : bytes) (more : list (ascii * bytes)) : bytes := d0 ++ flat_map (fun p => fst p :: snd p) more.
Definition groups_ok (d0 : bytes) (more : list (ascii * bytes)) : Prop :=
  Forall digit d0 /\ Forall (fun p => ~ digit (fst p) /\ fst p <> NUL /\ Forall digit (snd p)) more.
Definition group (d0 : bytes) (more : list (ascii * bytes)) (i : nat) : bytes := nth i (d0 :: map snd more) [].
(** a number up to 255 in decimal *)
Definition writes (s : bytes) (n : ascii) : Prop := s <> [] /\ Forall digit s /\ number s = N_of_ascii n.
Definition dotted (s : bytes) (ip : ipv4) : Prop :=
  let '(Ip a b c d) := ip in
  exists wa wb wc wd, writes wa a /\ writes wb b /\ writes wc c /\ writes wd d /\
    s = wa ++ "."%char :: wb ++ "."%char :: wc ++ "."%char :: wd.

(** ** Ranking *)
Definition lower (c : ascii) : ascii := let n := nat_of_ascii c in if (65 <=? n) && (n <=? 90) then ascii_of_nat (n + 32) else c.
Definition mentions (d w : bytes) : Prop := exists a b, map lower d = a ++ w ++ b.
Inductive how_many {A} (P : A -> Prop) : list A -> Z -> Prop :=
| none_of_none : how_many P [] 0
| one_more a l n : P a -> how_many P l n -> how_many P (a :: l) (n + 1)
| not_this a l n : ~ P a -> how_many P l n -> how_many P (a :: l) n.
Definition suspicious : list bytes := map bs ["virtual"; "ppp"; "tunnel"; "vpn"]%string.
Definition trusted : list bytes := map bs ["realtek"; "intel"; "wireless"]%string.
(** two points for each trusted word, minus two for each suspicious one, one for having
    a description at all *)
Definition rank (d : bytes) (k : Z) : Prop :=
  exists t s, how_many (mentions d) trusted t /\ how_many (mentions d) suspicious s /\
    k = (2 * (t - s) + match d with [] => 0 | _ => 1 end + 1)%Z.

(** std::sort with the comparison [less]: some reordering in which nothing comes after
    something it is less than *)
Definition std_sort {A} (less : A -> A -> bool) (sort : list A -> list A) : Prop :=
  forall l, Permutation (sort l) l /\ StronglySorted (fun a b => less b a = false) (sort l).
(** what std::sort demands of the comparison *)
Definition strict_weak_order {A} (less : A -> A -> bool) : Prop :=
  (forall a, less a a = false) /\
  (forall a b c, less a b = true -> less b c = true -> less a c = true) /\
  (forall a b c, less a b = false -> less b a = false -> less b c = false -> less c b = false -> less a c = false /\ less c a = false).

(** ** Adapters *)
(** an Ethernet adapter with a hardware address that is not zero, of which six bytes count *)
Definition usable (a : win_adapter) : bool :=
  wa_ethernet a && existsb (fun c => negb (Ascii.eqb c NUL)) (firstn (Nat.min 6 (N.to_nat (wa_addr_len a))) (wa_address a)).
Definition sound (a : win_adapter) (ip : ipv4) : Prop :=
  length (wa_address a) = 8 /\ exists text rest, wa_ip a = text ++ NUL :: rest /\ dotted text ip.
Definition description (a : win_adapter) : bytes := firstn 128 (cstr (wa_description a)).
Definition mac (a : win_adapter) : mac6 :=
  let b := firstn (Nat.min 6 (N.to_nat (wa_addr_len a))) (wa_address a) ++ repeat NUL 6 in
  let at_ i := nth i b NUL in Mac (at_ 0) (at_ 1) (at_ 2) (at_ 3) (at_ 4) (at_ 5).
Definition card (a : win_adapter) (o : os_adapter) : Prop :=
  oa_description o = description a /\ ad_mac (oa_adapter o) = mac a /\ sound a (ad_ip (oa_adapter o)).
(** the system delivers the list [l], at once or after the buffer is enlarged *)
Definition delivers (w : win_net) (l : list win_adapter) : Prop :=
  wn_alloc1 w = true /\
  (exists a r, l = a :: r /\ (wn_first w = GaOk a r \/ (wn_first w = GaOverflow /\ wn_alloc2 w = true /\ wn_second w = GaOk a r))).
Definition ranked_before (o p : os_adapter) : Prop :=
  forall i j, rank (oa_description o) i -> rank (oa_description p) j -> (j <= i)%Z.
