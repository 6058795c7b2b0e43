(** The layout of a license text does not matter (C80). *)
From Verif Require Import Base CTypes StringUtils Dates Base64 HwId Registry Ini Network Disks ExecEnv Strategies Locate Licensecc.
From Verif Require Import P_Base Spec_Strings Spec_Ini P_Ini P_IniSave Spec_Registry Spec_Acquire P_Acquire2 Spec_Ext P_Ext Spec_Layout P_Layout.
From Coq Require Import Permutation Lia.
From Verif Require Import Ex_Acquire.

(** ** C80 *)
(** Blank lines, comments, spaces and tabs around names, keys and values, and the kind of
    line ends do not matter for what a text says. *)
Theorem C80_entries d text f : renders d text -> section_entries text f = document_entries d f.
Proof. apply rendered_entries. Qed.
Print Assumptions C80_entries.
(** Two ways to write a license document, also with the sections and the entries in
    another order: the same result, in every detail. As text: *)
Theorem C80_text_layout w c out t d d' text text' : renders d text -> renders d' text' -> same_document d d' ->
  text <> [] -> text' <> [] -> length text <= HINT_SIZE -> length text' <= HINT_SIZE ->
  acquire_license w c (Some {| loc_type := 1; loc_data := text ++ [NUL] |}) out t =
  acquire_license w c (Some {| loc_type := 1; loc_data := text' ++ [NUL] |}) out t.
Proof.
  intros R R' D N1 N2 L1 L2. destruct (sets_out_lines _ _ R) as [F1 _]. destruct (sets_out_lines _ _ R') as [F2 _]. apply acquire_hints, hint_twin; try (apply starts_app; assumption); try (cbn; auto; fail).
  unfold hint_text. cbn [loc_data loc_type]. rewrite !array_text_eq by assumption. change (1 =? 2)%Z with false. cbn. rewrite (rendered_entries _ _ _ R), (rendered_entries _ _ _ R'). auto using same_alike.
Qed.
Print Assumptions C80_text_layout.
(** In files: *)
Theorem C80_file_layout w w' c hint out t : same_checks w w' -> same_places w w' -> w_good w' = w_good w ->
  (forall i p, same_file_document (w_file w i p) (w_file w' i p)) ->
  acquire_license w c hint out t = acquire_license w' c hint out t.
Proof.
  intros HC HP HG HF. apply acquire_same; [exact HC|exact HP| |]; intros; [rewrite HG; reflexivity|].
  match goal with |- file_alike ?f (w_file w ?i ?p) _ => specialize (HF i p); destruct (w_file w i p) as [a|], (w_file w' i p) as [b|]; try contradiction; try exact I end.
  cbn [file_alike]. destruct HF as [->|[d [d' [R [R' D]]]]]; [apply alike_refl|]. rewrite (rendered_entries _ _ _ R), (rendered_entries _ _ _ R'). apply same_alike, D.
Qed.
Print Assumptions C80_file_layout.

(** A license, and the same one with other line ends, comments, tabs, and its entries in
    another order, after a section that used to follow it. *)
Definition DOC : document := [(bs "demo", [(bs "lic_ver", bs "200"); (bs "extra-data", bs "hello"); (bs "sig", bs "DEMOextra-datahellolic_ver200")]); (bs "other", [(bs "a", bs "b c")])].
Definition DOC' : document := [(bs "Other", [(bs "a", bs "b c")]); (bs "DEMO", [(bs "sig", bs "DEMOextra-datahellolic_ver200"); (bs "extra-data", bs "hello"); (bs "lic_ver", bs "200")])].
Definition TEXT : bytes := free_license ++ LINE "[other]" ++ bs "a=b c".
Definition TEXT' : bytes :=
  bs "[ Other ] of no concern" ++ [CR; LF] ++ TAB :: bs "a = b c " ++ [CR] ++ bs "; ours" ++ [LF] ++ bs "[DEMO]" ++ [CR; LF; CR; LF] ++ bs " sig=DEMOextra-datahellolic_ver200" ++ [CR] ++
  bs "extra-data =  hello" ++ TAB :: [LF] ++ bs "#" ++ [LF] ++ bs "lic_ver=200".
Ltac wr_plain := let c := fresh "c" in let H := fresh "H" in intros c H; repeat (destruct H as [<-|H]; [split; [reflexivity|discriminate]|]); destruct H.
Ltac wr_clean := split; [wr_plain|vm_compute; reflexivity].
Ltac wr_key := split; [wr_clean|split; [vm_compute; intuition discriminate|eexists _, _; split; [reflexivity|vm_compute; intuition discriminate]]].
Lemma doc_text : renders DOC TEXT.
Proof.
  unfold renders.
  change (sets_out (kept (LHeader (bs "demo")) ++ kept (LEntry (bs "lic_ver") (bs "200")) ++ kept (LEntry (bs "extra-data") (bs "hello")) ++ kept (LEntry (bs "sig") (bs "DEMOextra-datahellolic_ver200")) ++ kept (LHeader (bs "other")) ++ kept (LEntry (bs "a") (bs "b c")))
    ((bs "[demo]") ++ [LF] ++ bs "lic_ver = 200" ++ [LF] ++ bs "extra-data = hello" ++ [LF] ++ bs "sig = DEMOextra-datahellolic_ver200" ++ [LF] ++ bs "[other]" ++ [LF] ++ bs "a=b c")).
  repeat (apply so_line; [|left; reflexivity|]); try apply so_last.
  - apply (wr_header [] [] (bs "demo") [] []); try reflexivity; [split; [wr_clean|vm_compute; intuition discriminate]|wr_plain].
  - apply (wr_entry [] (bs "lic_ver") [SP] [SP] (bs "200") []); try reflexivity; [wr_key|wr_clean].
  - apply (wr_entry [] (bs "extra-data") [SP] [SP] (bs "hello") []); try reflexivity; [wr_key|wr_clean].
  - apply (wr_entry [] (bs "sig") [SP] [SP] (bs "DEMOextra-datahellolic_ver200") []); try reflexivity; [wr_key|wr_clean].
  - apply (wr_header [] [] (bs "other") [] []); try reflexivity; [split; [wr_clean|vm_compute; intuition discriminate]|wr_plain].
  - apply (wr_entry [] (bs "a") [] [] (bs "b c") []); try reflexivity; [wr_key|wr_clean].
Qed.
Lemma doc_text' : renders DOC' TEXT'.
Proof.
  unfold renders.
  change (sets_out (kept (LHeader (bs "Other")) ++ kept (LEntry (bs "a") (bs "b c")) ++ kept LNothing ++ kept (LHeader (bs "DEMO")) ++ kept LNothing ++ kept (LEntry (bs "sig") (bs "DEMOextra-datahellolic_ver200")) ++ kept (LEntry (bs "extra-data") (bs "hello")) ++ kept LNothing ++ kept (LEntry (bs "lic_ver") (bs "200")))
    (bs "[ Other ] of no concern" ++ [CR; LF] ++ (TAB :: bs "a = b c ") ++ [CR] ++ bs "; ours" ++ [LF] ++ bs "[DEMO]" ++ [CR; LF] ++ [] ++ [CR; LF] ++ bs " sig=DEMOextra-datahellolic_ver200" ++ [CR] ++
     (bs "extra-data =  hello" ++ [TAB]) ++ [LF] ++ bs "#" ++ [LF] ++ bs "lic_ver=200")).
  repeat (apply so_line; [|unfold line_end; auto|]); try apply so_last.
  - apply (wr_header [] [SP] (bs "Other") [SP] (bs " of no concern")); try reflexivity; [split; [wr_clean|vm_compute; intuition discriminate]|wr_plain].
  - apply (wr_entry [TAB] (bs "a") [SP] [SP] (bs "b c") [SP]); try reflexivity; [wr_key|wr_clean].
  - apply (wr_comment [] ";" (bs " ours")); [reflexivity|auto|wr_plain].
  - apply (wr_header [] [] (bs "DEMO") [] []); try reflexivity; [split; [wr_clean|vm_compute; intuition discriminate]|wr_plain].
  - apply wr_blank. reflexivity.
  - apply (wr_entry [SP] (bs "sig") [] [] (bs "DEMOextra-datahellolic_ver200") []); try reflexivity; [wr_key|wr_clean].
  - apply (wr_entry [] (bs "extra-data") [SP] [SP; SP] (bs "hello") [TAB]); try reflexivity; [wr_key|wr_clean].
  - apply (wr_comment [] "#" []); [reflexivity|auto|wr_plain].
  - apply (wr_entry [] (bs "lic_ver") [] [] (bs "200") []); try reflexivity; [wr_key|wr_clean].
Qed.
Lemma doc_same : reordered DOC DOC'.
Proof.
  split; [|split].
  - split; [|split; [intros ? ? []|exact I]]. intros n es [H|[]]. injection H as <- <-. vm_compute. discriminate.
  - intros n es [H|[H|[]]]; injection H as <- <-; cbn [distinct_names].
    + split; [|split; [|split; [intros ? ? []|exact I]]].
      * intros k v [X|[X|[]]] S; injection X as <- <-; vm_compute in S; discriminate S.
      * intros k v [X|[]] S; injection X as <- <-; vm_compute in S; discriminate S.
    + split; [intros ? ? []|exact I].
  - eexists. split; [apply perm_swap|]. repeat constructor. cbn [snd]. eapply perm_trans; [apply perm_swap|]. eapply perm_trans; [apply perm_skip, perm_swap|]. apply perm_swap.
Qed.
Example C80_case : renders DOC TEXT /\ renders DOC' TEXT' /\ same_document DOC DOC' /\
  code_of (acquire_license (demo false false NOW [] []) (Some (asking "demo")) (Some (hint_of 1 TEXT)) None 0) = Ok LICENSE_OK /\
  code_of (acquire_license (demo false false NOW [] []) (Some (asking "demo")) (Some (hint_of 1 TEXT')) None 0) = Ok LICENSE_OK.
Proof. split; [exact doc_text|]. split; [exact doc_text'|]. split; [right; exact doc_same|]. split; vm_compute; reflexivity. Qed.
