(** The execution environment: what is detected from which file. *)
From Verif Require Import Base Disks ExecEnv Spec_Strings Spec_Disks.
From Coq Require Import Permutation.

Definition has (needle s : bytes) : Prop := exists a b, s = a ++ needle ++ b.
Definition line_says (needle : string) (lines : option (list bytes)) : Prop :=
  exists ls l, lines = Some ls /\ In l ls /\ has (bs needle) l.
(** a container: a cgroup line mentions docker or lxc, or systemd's container file
    is there *)
Definition in_container (x : exec_files) : Prop :=
  (exists ls l, xf_cgroup x = Some ls /\ In l ls /\ (has (bs "docker") (cstr l) \/ has (bs "lxc") (cstr l))) \/
  xf_systemd x <> None.
(** the table entries matching a text *)
Definition matches (table : list (bytes * virt_detail)) (s : bytes) (v : virt_detail) : Prop :=
  exists k, In (k, v) table /\ has k s.
Definition hash_orders (x : exec_files) : Prop :=
  (forall l, Permutation (xf_vendor_order x l) l) /\ (forall l, Permutation (xf_cpu_order x l) l).
(** the same machine, other hash tables *)
Definition same_readings (x x' : exec_files) : Prop :=
  xf_cgroup x' = xf_cgroup x /\ xf_systemd x' = xf_systemd x /\ xf_sys_vendor x' = xf_sys_vendor x /\ xf_modalias x' = xf_modalias x /\
  xf_cpu x' = xf_cpu x.

(** ** What is read *)
(** at most 256 bytes of a file (NUL for bytes announced but not delivered) *)
Definition first256 (f : option file) : option bytes :=
  match f with
  | None => None
  | Some f => let n := N.to_nat (N.min (f_size f) 256) in Some (firstn n (f_data f ++ repeat NUL n))
  end.
Definition tidy (o : option bytes) : bytes := match o with Some s => upper (trimmed s) | None => [] end.
(** the sys_vendor text is used a second time as it is, only without its last
    character if the one before is a line break *)
Definition untidy (o : option bytes) : bytes :=
  match o with
  | Some s => match rev s with
              | _ :: b :: r => if Ascii.eqb b CR || Ascii.eqb b LF then rev (b :: r) else s
              | _ => s
              end
  | None => []
  end.
Inductive text_id := Description | Vendor | RawVendor.
Definition dmi_text (x : exec_files) (t : text_id) : bytes :=
  match t with
  | Description => tidy (first256 (xf_modalias x))
  | Vendor => tidy (first256 (xf_sys_vendor x))
  | RawVendor => untidy (first256 (xf_sys_vendor x))
  end.
(** the constructor has undefined behaviour *)
Definition bad_dmi (x : exec_files) : Prop :=
  (exists s, first256 (xf_modalias x) = Some s /\ trimmed s = []) \/ (exists s, first256 (xf_sys_vendor x) = Some s /\ length s < 2).

(** ** What is concluded *)
(** clouds, in order of precedence, with the words that give them away *)
Definition cloud_words : list (cloud * list (text_id * string)) :=
  [ (ALI_CLOUD, [(Vendor, "SEABIOS"); (Description, "ALIBABA"); (RawVendor, "ALIBABA")]);
    (GOOGLE_CLOUD, [(RawVendor, "GOOGLE"); (Description, "GOOGLECOMPUTEENGINE")]);
    (AWS, [(Vendor, "AWS"); (Description, "AMAZON"); (RawVendor, "AWS")]);
    (ON_PREMISE, [(Description, "HP-COMPAQ"); (Description, "ASUS"); (Description, "DELL")]) ]%string.
Definition row_matches (x : exec_files) (row : cloud * list (text_id * string)) : Prop :=
  exists t w, In (t, w) (snd row) /\ has (bs w) (dmi_text x t).
(** the first row with a match, or unknown *)
Definition cloud_found (x : exec_files) (c : cloud) : Prop :=
  (exists before row after, cloud_words = before ++ row :: after /\ row_matches x row /\ fst row = c /\ forall r, In r before -> ~ row_matches x r) \/
  (c = PROV_UNKNOWN /\ forall r, In r cloud_words -> ~ row_matches x r).

(** virtualisation products, by the words found in a text *)
Definition vendor_words : list (string * virt_detail) :=
  [("VMWARE", VMWARE); ("MICROSOFT", HV); ("PARALLELS", PARALLELS); ("VITRUAL MACHINE", V_OTHER); ("INNOTEK GMBH", VIRTUALBOX);
   ("POWERVM", V_OTHER); ("BOCHS", V_OTHER); ("KVM", KVM)]%string.
Definition cpu_words : list (string * virt_detail) :=
  [("bhyve bhyve ", V_OTHER); ("KVM", KVM); ("MICROSOFT", HV); (" lrpepyh vr", HV); ("prl hyperv  ", PARALLELS); ("VMWARE", VMWARE);
   ("XenVMMXenVMM", V_XEN); ("ACRNACRNACRN", V_OTHER); ("VBOX", VIRTUALBOX)]%string.
Definition shows (table : list (string * virt_detail)) (s : bytes) (v : virt_detail) : Prop := exists w, In (w, v) table /\ has (bs w) s.
(** the texts that are searched, in order, each with its table *)
Definition searched (x : exec_files) : list (list (string * virt_detail) * bytes) :=
  [(vendor_words, dmi_text x Description); (vendor_words, dmi_text x Vendor); (vendor_words, dmi_text x RawVendor);
   (cpu_words, xf_cpu_vendor x); (cpu_words, xf_cpu_brand x)].
Definition in_cloud (x : exec_files) : Prop := exists c, cloud_found x c /\ c <> ON_PREMISE /\ c <> PROV_UNKNOWN.
(** [v] may be reported: it is one of the products shown by the first text that
    shows any; if none does, V_OTHER under a hypervisor or in a cloud, else bare metal *)
Definition detail_found (x : exec_files) (v : virt_detail) : Prop :=
  (exists before q after, searched x = before ++ q :: after /\ shows (fst q) (snd q) v /\ forall r v', In r before -> ~ shows (fst r) (snd r) v') \/
  ((forall r v', In r (searched x) -> ~ shows (fst r) (snd r) v') /\
   ((v = V_OTHER /\ (xf_hypervisor x = true \/ in_cloud x)) \/ (v = BARE_TO_METAL /\ xf_hypervisor x = false /\ ~ in_cloud x))).

(** the container: the first line of the cgroup file that mentions docker or lxc (lxc
    prevails on a line with both), else the systemd file if it is there: its first
    line mentioning docker or lxc (docker prevails), or docker if none does *)
Definition telling (f : bytes -> bytes) (ls : list bytes) (l : bytes) : Prop :=
  exists before after, ls = before ++ l :: after /\ (has (bs "docker") (f l) \/ has (bs "lxc") (f l)) /\
    forall l', In l' before -> ~ has (bs "docker") (f l') /\ ~ has (bs "lxc") (f l').
Definition container_found (x : exec_files) (c : container) : Prop :=
  (exists ls l, xf_cgroup x = Some ls /\ telling cstr ls l /\ ((has (bs "lxc") (cstr l) /\ c = CT_LXC) \/ (~ has (bs "lxc") (cstr l) /\ c = CT_DOCKER))) \/
  ((forall ls l, xf_cgroup x = Some ls -> ~ telling cstr ls l) /\
   match xf_systemd x with
   | None => c = CT_NONE
   | Some ls => (exists l, telling (fun l => l) ls l /\ ((has (bs "docker") l /\ c = CT_DOCKER) \/ (~ has (bs "docker") l /\ c = CT_LXC))) \/
                ((forall l, ~ telling (fun l => l) ls l) /\ c = CT_DOCKER)
   end).
(** the summary *)
Definition summary_found (x : exec_files) (s : virt_summary) : Prop :=
  exists c, container_found x c /\
    match c with
    | CT_NONE => exists v, detail_found x v /\ s = match v with BARE_TO_METAL => VS_NONE | _ => VS_VM end
    | _ => s = VS_CONTAINER
    end.
