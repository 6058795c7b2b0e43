(** The scanner with multi-line values computes the reading line by line. *)
From Coq Require Import Lia.
From Verif Require Import Base P_Base CTypes StringUtils P_Strings Ini Spec_Ini P_Ini IniMulti Spec_IniMulti P_IniMulti3 P_IniMulti4.

Lemma ini_scan_ml_ok f sec s : length s < f -> ini_scan_ml f sec s = semm sec Plain s.
Proof.
  revert sec s; induction f as [|f IH]; intros sec s Hf; [lia|].
  cbn [ini_scan_ml]. pose proof (semm_spaces sec false s) as SS; cbn [mode] in SS; rewrite <- SS; clear SS.
  pose proof (drop_while_length ini_space s) as Hl. pose proof (drop_while_head ini_space s) as Hh.
  destruct (drop_while ini_space s) as [|c r]; [reflexivity|]. cbn in Hh. cbn [length] in Hl.
  destruct (ini_space_false c Hh) as [Hgap Heol].
  destruct (ini_comment c) eqn:Ec.
  { destruct (mskip_comment_ok f true (c :: r) sec) as [s' [E [Hs [_ Hlt]]]]; [cbn; lia|].
    rewrite E, IH; [rewrite Hs; reflexivity|]. specialize (Hlt c r eq_refl Ec). cbn in Hlt. lia. }
  destruct (Ascii.eqb_spec c "["%char) as [->|Hbr].
  { rewrite semm_open. pose proof (semm_spaces sec true r) as SS; cbn [mode] in SS; rewrite <- SS; clear SS.
    pose proof (drop_while_length ini_space r) as Hl2. pose proof (drop_while_head ini_space r) as Hh2.
    set (r' := drop_while ini_space r) in *. clearbody r'.
    destruct (span _ r') as [name rest] eqn:Esp. apply span_key in Esp as [Er [Hn [Hnb Hrest]]].
    assert (Hname : strip name = rdrop_while ini_space name).
    { rewrite rdrop_while_free by exact Hn. destruct name as [|x y]; [reflexivity|]. apply strip_head. subst r'. cbn in Hh2.
      apply ini_space_false, Hh2. }
    assert (Hlenr : length r' = length name + length rest) by (rewrite Er; apply app_length).
    unfold semm at 1. destruct rest as [|d rest'].
    - rewrite app_nil_r in Er. subst r'. rewrite <- (app_nil_r name) at 1.
      rewrite plines_split by (cbn; auto). cbn [pafter]. rewrite mread_open, IH by (cbn in *; lia). 
      unfold mopen. destruct (forallb is_gap name); [reflexivity|]. rewrite cut_at_absent by exact Hnb. reflexivity.
    - cbn [length] in Hlenr. destruct Hrest as [->|[Hd He]].
      + change (Ascii.eqb "]" "]") with true. cbn iota.
        destruct (line_end rest') as [a [t [-> [Ha Ht]]]]. rewrite to_eol_split by assumption.
        rewrite app_length in Hlenr.
        rewrite IH by (cbn in *; lia). cbn [option_map]. 
        subst r'. replace (name ++ "]"%char :: a ++ t) with ((name ++ "]"%char :: a) ++ t) by (rewrite <- app_assoc; reflexivity).
        rewrite plines_split; [|apply eol_free_app; split; [exact Hn|apply eol_free_cons; auto]|exact Ht].
        rewrite mread_open. unfold mopen.
        assert (forallb is_gap (name ++ "]"%char :: a) = false) as ->.
        { rewrite forallb_app. cbn. apply andb_false_r. }
        rewrite (cut_at_span "]"%char _ name a Hnb eq_refl). rewrite Hname, semm_after by exact Ht. reflexivity.
      + destruct (Ascii.eqb_spec d "]"%char) as [|_]; [contradiction|].
        rewrite IH by (cbn in *; lia). f_equal. subst r'. rewrite plines_split by assumption. rewrite mread_open.
        unfold mopen. rewrite cut_at_absent by exact Hnb.
        destruct name as [|x y].
        { cbn in Hh2. apply ini_space_false in Hh2 as [_ Hh2]. congruence. }
        cbn in Hh2. apply ini_space_false in Hh2 as [Hx _]. cbn [forallb]. rewrite Hx. cbn [andb].
        rewrite semm_after by exact He. reflexivity. }
  destruct (span _ (c :: r)) as [key rest] eqn:Esp. apply span_key in Esp as [Er [Hk [Hke Hrest]]].
  assert (Hlenr : S (length r) = length key + length rest).
  { change (S (length r)) with (length (c :: r)). rewrite Er. apply app_length. }
  unfold semm at 1. destruct rest as [|d rest'].
  - rewrite app_nil_r in Er. rewrite IH by (cbn; lia). f_equal. rewrite <- Er in Hk, Hke.
    rewrite <- (app_nil_r (c :: r)). rewrite plines_split by (cbn; auto). rewrite mread_plain by assumption.
    rewrite cut_at_absent by exact Hke. reflexivity.
  - cbn [length] in Hlenr. destruct Hrest as [->|[Hd He]].
    + change (Ascii.eqb "=" "=") with true. cbn iota.
      destruct (line_end rest') as [a [t [-> [Ha Ht]]]]. rewrite app_length in Hlenr.
      assert (Hline : plines (c :: r) = (key ++ "="%char :: a) :: pafter t).
      { rewrite Er. replace (key ++ "="%char :: a ++ t) with ((key ++ "="%char :: a) ++ t) by (rewrite <- app_assoc; reflexivity).
        apply plines_split; [apply eol_free_app; split; [exact Hk|apply eol_free_cons; auto]|exact Ht]. }
      rewrite Hline.
      destruct key as [|k0 key'].
      * change ("="%char :: a ++ t) with (("="%char :: a) ++ t). rewrite to_eol_split by (auto; apply eol_free_cons; auto).
        injection Er as -> _. rewrite IH by lia. rewrite semm_after by exact Ht. cbn [app].
        rewrite mread_plain by (try reflexivity; discriminate). reflexivity.
      * injection Er as <- Er.
        rewrite (drop_while_ext (fun x => not_nl x && ini_space x) is_gap).
        2: { intros x. rewrite not_nl_eol, ini_space_cases. destruct (is_gap x) eqn:Eg; [rewrite (gap_not_eol x Eg); reflexivity|]. destruct (is_eol x); reflexivity. }
        assert (Hdrop : drop_while is_gap (a ++ t) = drop_while is_gap a ++ t).
        { destruct (drop_while_split is_gap a) as [p [Ep Hp]]. rewrite Ep at 1. rewrite <- app_assoc, drop_while_app by exact Hp.
          apply drop_while_id. pose proof (drop_while_head is_gap a) as Hx. destruct (drop_while is_gap a) as [|y z]; cbn in *; [|exact Hx].
          destruct t as [|y z]; cbn in *; [exact I|]. destruct (is_gap y) eqn:Ey; [|reflexivity]. apply gap_not_eol in Ey. congruence. }
        rewrite Hdrop. rewrite (span_unique not_nl).
        2: { apply eol_free_drop, Ha. }
        2: { destruct t as [|y z]; cbn in *; [exact I|]. rewrite not_nl_eol, Ht. reflexivity. }
        assert (Hrest3 : length (match t with [] => [] | _ => skip_newline t end) <= length t).
        { destruct t as [|y z]; [cbn; lia|]. cbn [skip_newline tl]. destruct z as [|u z]; [cbn; lia|]. destruct (_ && _); cbn; lia. }
        cbn [app]. rewrite mread_plain by assumption. change (c :: key' ++ "="%char :: a) with ((c :: key') ++ "="%char :: a).
        rewrite (cut_at_span "="%char _ (c :: key') a Hke eq_refl). cbv iota.
        rewrite (rdrop_while_free (c :: key')) by exact Hk. rewrite <- (strip_head c key' Hgap).
        rewrite (rdrop_while_free (drop_while is_gap a)) by (apply eol_free_drop, Ha). rewrite <- strip_spec.
        set (rest3 := match t with [] => [] | _ => skip_newline t end) in *.
        destruct (opens (strip a)) as [tag|].
        -- assert (EQ : read_ml sec (Inside (strip (c :: key')) tag []) (pafter t) = semm sec (Inside (strip (c :: key')) tag []) rest3).
           { unfold rest3. destruct t as [|y z]; [|reflexivity]. cbn [pafter]. unfold semm. cbn [plines read_ml]. destruct (same_nameb [] tag); reflexivity. }
           rewrite EQ. destruct (scan_multi_ok sec (strip (c :: key')) tag f rest3 [] ltac:(cbn in *; lia)) as (ls & r4 & X1 & _ & X3 & X4). rewrite X1, X4. cbn [app].
           destruct ls as [|l0 ls]; [reflexivity|]. rewrite IH by (cbn in *; lia). reflexivity.
        -- rewrite IH by (cbn in *; lia). unfold rest3. destruct t as [|y z]; reflexivity.
    + destruct (Ascii.eqb_spec d "="%char) as [|_]; [contradiction|].
      destruct key as [|k0 key'].
      { injection Er as -> _. congruence. }
      cbn [length] in Hlenr. rewrite IH by (cbn [length]; lia). f_equal. rewrite Er. rewrite plines_split by assumption.
      injection Er as <- Er. rewrite mread_plain by assumption. rewrite cut_at_absent by exact Hke.
      rewrite semm_after by exact He. reflexivity.
Qed.

