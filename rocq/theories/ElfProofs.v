(** Proofs about ElfModel.v. *)
From Verif Require Import Base ListFacts HashTrace ElfModel SpecElf.
From Coq Require Import ZifyBool.

(** *** integer helpers *)
Lemma land_1_mod v : Z.land v 1 = v mod 2.
Proof. change 1 with (Z.ones 1). rewrite Z.land_ones by lia. reflexivity. Qed.

Lemma land_lnot1 v : Z.land v (Z.lnot 1) = 2 * (v / 2).
Proof.
  change 1 with (Z.ones 1). rewrite <- Z.ldiff_land, Z.ldiff_ones_r by lia.
  rewrite Z.shiftl_mul_pow2, Z.shiftr_div_pow2 by lia. change (2 ^ 1) with 2. lia.
Qed.

Lemma land_32767 v : Z.land v 32767 = v mod 2 ^ 15.
Proof. change 32767 with (Z.ones 15). apply Z.land_ones; lia. Qed.

Lemma u32_small z : 0 <= z < two32 -> u32 z = z.
Proof. intros H. unfold u32. apply Z.mod_small; auto. Qed.
Lemma u64_small z : 0 <= z < two64 -> u64 z = z.
Proof. intros H. unfold u64. apply Z.mod_small; auto. Qed.

(** *** GNU hash function *)
Fixpoint hash_poly (f : Z -> Z) (s : cstr) : Z := match s with [] => 0 | c :: r => f c * 33 ^ Z.of_nat (length r) + hash_poly f r end.
Lemma hash_fold f : forall s h, fold_left (fun h c => (h * 33 + f c) mod 2 ^ 32) s h mod 2 ^ 32 = (h * 33 ^ Z.of_nat (length s) + hash_poly f s) mod 2 ^ 32.
Proof.
  induction s as [|c s IH]; intros h; cbn [fold_left hash_poly length].
  - f_equal. change (33 ^ Z.of_nat 0) with 1. lia.
  - rewrite IH. rewrite Nat2Z.inj_succ, Z.pow_succ_r by lia. rewrite <- (Zplus_mod_idemp_l (_ * _)), Zmult_mod_idemp_l, Zplus_mod_idemp_l. f_equal. lia.
Qed.
Lemma hash_fold_range (f : Z -> Z) s : forall h, 0 <= h < 2 ^ 32 -> 0 <= fold_left (fun h c => (h * 33 + f c) mod 2 ^ 32) s h < 2 ^ 32.
Proof. induction s as [|c s IH]; intros h H; cbn [fold_left]; auto. apply IH. apply Z.mod_pos_bound. lia. Qed.
Lemma gnu_hash_func_poly s : gnu_hash_func s = (5381 * 33 ^ Z.of_nat (length s) + hash_poly schar s) mod 2 ^ 32.
Proof. rewrite <- hash_fold. symmetry. apply Z.mod_small. apply hash_fold_range. lia. Qed.
Lemma gnu_hash_abi_poly s : gnu_hash_abi s = (5381 * 33 ^ Z.of_nat (length s) + hash_poly (fun c => c) s) mod 2 ^ 32.
Proof. rewrite <- hash_fold. symmetry. apply Z.mod_small. apply hash_fold_range. lia. Qed.
Lemma poly_high s : Forall (fun c => 0 <= c <= 255) s -> hash_poly (fun c => c) s = hash_poly schar s + 256 * high_sum s.
Proof.
  induction 1 as [|c s Hc _ IH]; [reflexivity|]. cbn [hash_poly high_sum]. rewrite IH. unfold schar. destruct (Z.ltb_spec c 128), (Z.ltb_spec 127 c); try lia.
Qed.
(** the two hash values differ by 256 times [high_sum] *)
Lemma gnu_hash_diff s : Forall (fun c => 0 <= c <= 255) s -> gnu_hash_abi s = (gnu_hash_func s + 256 * high_sum s) mod 2 ^ 32.
Proof. intros H. rewrite gnu_hash_abi_poly, gnu_hash_func_poly, (poly_high s H), Zplus_mod_idemp_l. f_equal. lia. Qed.
Lemma high_mod x : 256 * x mod 2 ^ 32 = 256 * (x mod 2 ^ 24).
Proof. change (2 ^ 32) with (256 * 2 ^ 24). rewrite Zmult_mod_distr_l. reflexivity. Qed.
Lemma gnu_hash_plain s : plain s -> gnu_hash_func s = gnu_hash_abi s.
Proof.
  intros [H E]. rewrite (gnu_hash_diff s H), <- Zplus_mod_idemp_r, high_mod, E, Z.add_0_r. symmetry. apply Z.mod_small. apply hash_fold_range. lia.
Qed.
(** ... so unless they are equal they differ by more than the last bit *)
Lemma gnu_hash_half s : Forall (fun c => 0 <= c <= 255) s -> gnu_hash_func s / 2 = gnu_hash_abi s / 2 -> plain s.
Proof.
  intros H E. split; [auto|]. pose proof (gnu_hash_diff s H) as D. rewrite <- Zplus_mod_idemp_r, high_mod in D.
  assert (R : 0 <= gnu_hash_func s < 2 ^ 32) by (apply hash_fold_range; lia).
  pose proof (Z.mod_pos_bound (high_sum s) (2 ^ 24) ltac:(lia)) as M. set (q := high_sum s mod 2 ^ 24) in *. set (a := gnu_hash_abi s) in *. set (b := gnu_hash_func s) in *.
  assert (A : a = b + 256 * q \/ a = b + 256 * q - 2 ^ 32).
  { destruct (Z_lt_le_dec (b + 256 * q) (2 ^ 32)) as [L|L].
    - left. rewrite D. apply Z.mod_small. lia.
    - right. rewrite D. symmetry. apply Z.mod_unique with (q := 1); lia. }
  assert (Q : -2 < a - b < 2).
  { pose proof (Z.div_mod a 2 ltac:(lia)). pose proof (Z.div_mod b 2 ltac:(lia)). pose proof (Z.mod_pos_bound a 2 ltac:(lia)). pose proof (Z.mod_pos_bound b 2 ltac:(lia)). lia. }
  lia.
Qed.
Lemma high_sum_count s : high_sum s mod 32 = Z.of_nat (high_count s) mod 32.
Proof.
  unfold high_count. induction s as [|c s IH]; [reflexivity|]. cbn [high_sum filter]. destruct (127 <? c); [|exact IH].
  rewrite Z.add_mod, IH by lia. assert (P : 33 ^ Z.of_nat (length s) mod 32 = 1).
  { clear. induction (length s) as [|n IHn]; [reflexivity|]. rewrite Nat2Z.inj_succ, Z.pow_succ_r, Z.mul_mod, IHn by lia. reflexivity. }
  rewrite P. cbn [length]. rewrite Nat2Z.inj_succ, <- Z.add_1_l. apply Zplus_mod_idemp_r.
Qed.
Lemma plain_count s : plain s -> Z.of_nat (high_count s) mod 32 = 0.
Proof.
  intros [_ E]. rewrite <- high_sum_count. rewrite (Z.div_mod (high_sum s) (2 ^ 24)), E by lia. rewrite Z.add_0_r. change (2 ^ 24) with (32 * 524288).
  rewrite <- Z.mul_assoc, Z.mul_comm. apply Z.mod_mul. lia.
Qed.
Lemma ascii_plain s : ascii s -> plain s.
Proof.
  intros H. split; [eapply Forall_impl; [|exact H]; cbn; intros; lia|]. enough (E : high_sum s = 0) by (rewrite E; reflexivity).
  induction H as [|c s Hc _ IH]; [reflexivity|]. cbn [high_sum]. rewrite IH. destruct (Z.ltb_spec 127 c); lia.
Qed.

Lemma gnu_hash_func_range s : 0 <= gnu_hash_func s < two32.
Proof.
  unfold gnu_hash_func. assert (H : 0 <= 5381 < two32) by (unfold two32; lia). revert H. generalize 5381.
  induction s as [|c s IH]; intros h H; cbn [fold_left]; auto. apply IH. unfold u32. apply Z.mod_pos_bound. unfold two32; lia.
Qed.

(** *** version selection *)
(** effect of on_match along a list of matching symbols *)
Fixpoint scan (versym : option (list Z)) (ms : list Z) (st : vstate) : option Z :=
  match ms with
  | [] => fst st
  | i :: r => match versym with
              | None => Some i
              | Some vs => if version_of vs i >? snd st then scan versym r (Some i, version_of vs i)
                           else scan versym r st
              end
  end.

Lemma scan_selects versym ms : selects versym ms (scan versym ms (None, 0)).
Proof.
  destruct versym as [vs|]; [|destruct ms; reflexivity].
  assert (HG : forall ms st,
     match scan (Some vs) ms st with
     | None => fst st = None /\ forall j, In j ms -> version_of vs j <= snd st
     | Some i => (fst st = Some i /\ forall j, In j ms -> version_of vs j <= snd st) \/
         exists l1 l2, ms = l1 ++ i :: l2 /\ snd st < version_of vs i /\
           (forall j, In j l1 -> version_of vs j < version_of vs i) /\
           (forall j, In j l2 -> version_of vs j <= version_of vs i)
     end).
  { clear ms. induction ms as [|i r IH]; intros st; cbn [scan].
    - destruct st as [[i|] v]; cbn; [left|]; split; auto; intros j [].
    - rewrite Z.gtb_ltb. destruct (Z.ltb_spec (snd st) (version_of vs i)) as [Hlt|Hge].
      + specialize (IH (Some i, version_of vs i)). destruct (scan (Some vs) r (Some i, version_of vs i)) as [x|] eqn:Hs; cbn [fst snd] in IH.
        * destruct IH as [[E Hall]|(l1 & l2 & -> & Hx & H1 & H2)].
          -- injection E as <-. right. exists [], r. cbn. repeat split; auto; intros j [].
          -- right. exists (i :: l1), l2. repeat split; auto; try lia.
             intros j [<-|Hj]; auto.
        * destruct IH as [E _]. discriminate.
      + specialize (IH st). destruct (scan (Some vs) r st) as [x|] eqn:Hs.
        * destruct IH as [[E Hall]|(l1 & l2 & -> & Hx & H1 & H2)].
          -- left. split; auto. intros j [<-|Hj]; auto.
          -- right. exists (i :: l1), l2. repeat split; auto. intros j [<-|Hj]; auto. lia.
        * destruct IH as [E Hall]. split; auto. intros j [<-|Hj]; auto. }
  specialize (HG ms (None, 0)). unfold selects. destruct (scan (Some vs) ms (None, 0)) as [i|]; cbn [fst snd] in HG.
  - destruct HG as [[E _]|H]; [discriminate|exact H].
  - destruct HG as [_ H]. intros j Hj. specialize (H j Hj).
    assert (0 <= version_of vs j); [|lia]. unfold version_of. destruct (nth_error vs _); [apply Z.mod_pos_bound; lia|lia].
Qed.

Lemma on_match_spec versym syms i st : versym_ok versym syms -> (Z.to_nat i < length syms)%nat ->
  on_match versym i st = Ok (match versym with
    | None => inl (Some i)
    | Some vs => inr (if version_of vs i >? snd st then (Some i, version_of vs i) else st) end).
Proof.
  intros HV Hi. destruct versym as [vs|]; [|reflexivity]. cbn in HV. destruct HV as [HL _].
  unfold on_match, version_of. destruct (nth_error_lt_Some vs (Z.to_nat i)) as [v Hv]; [lia|].
  rewrite Hv, land_32767. destruct (v mod 2 ^ 15 >? snd st); reflexivity.
Qed.

Lemma strcmp_name name n : (libc_strcmp name n =? 0) = cstr_eqb n name.
Proof.
  unfold cstr_eqb. destruct (cstr_eq_dec n name) as [->|Hne].
  - rewrite (proj2 (libc_strcmp_eq0 name name) eq_refl). reflexivity.
  - apply Z.eqb_neq. intros H. apply libc_strcmp_eq0 in H. congruence.
Qed.

(** *** GNU lookup *)
Lemma gnu_chain_range vals symndx s ch : gnu_chain vals symndx s ch ->
  forall i, In i ch -> symndx <= s <= i /\ (Z.to_nat (i - symndx) < length vals)%nat.
Proof.
  induction 1 as [s v Hs Hv Hodd|s v r Hs Hv Hev Hc IH]; intros i Hi.
  - destruct Hi as [<-|[]]. apply nth_error_Some_lt in Hv. lia.
  - destruct Hi as [<-|Hi]; [apply nth_error_Some_lt in Hv; lia|]. destruct (IH i Hi). lia.
Qed.

Lemma gnu_chain_hd vals symndx s ch : gnu_chain vals symndx s ch -> exists r, ch = s :: r.
Proof. destruct 1; eauto. Qed.

Lemma gnu_chain_length vals symndx s ch : gnu_chain vals symndx s ch -> symndx <= s ->
  (length ch + Z.to_nat (s - symndx) <= length vals)%nat.
Proof.
  induction 1 as [s v Hs Hv Hodd|s v r Hs Hv Hev Hc IH]; intros Hss; cbn [length].
  - apply nth_error_Some_lt in Hv. lia.
  - pose proof (IH ltac:(lia)). lia.
Qed.

Lemma gnu_chain_fun vals symndx s ch : gnu_chain vals symndx s ch -> forall ch', gnu_chain vals symndx s ch' -> ch = ch'.
Proof.
  induction 1 as [s v Hs Hv Hodd|s v r Hs Hv Hev Hc IH]; intros ch' H';
    inversion H' as [s' v' Hs' Hv' Hp|s' v' r' Hs' Hv' Hp Hr]; subst; auto; rewrite Hv in Hv'; injection Hv' as <-; try lia.
  f_equal. apply IH; auto.
Qed.

Lemma gnu_loop_chain name syms versym str vals symndx hv :
  versym_ok versym syms -> 0 <= symndx -> symndx + Z.of_nat (length vals) <= Z.of_nat (length syms) ->
  Z.of_nat (length syms) < two32 ->
  forall s ch, gnu_chain vals symndx s ch -> forall fuel st, (length ch <= fuel)%nat ->
  gnu_loop fuel name syms versym str vals symndx hv s st =
    Ok (scan versym (filter (fun i => match nth_error vals (Z.to_nat (i - symndx)) with
                                      | Some v => (Z.land v (Z.lnot 1) =? hv) && name_is syms str name i
                                      | None => false end) ch) st).
Proof.
  intros HV Hn Hlen H32. induction 1 as [s v Hs Hv Hodd|s v r Hs Hv Hev Hc IH]; intros fuel st Hf; cbn [length] in Hf;
    (destruct fuel as [|fuel]; [lia|]); cbn [gnu_loop filter].
  - pose proof (nth_error_Some_lt _ _ _ Hv) as Hlt.
    rewrite u32_small by (unfold two32 in *; lia). rewrite Hv.
    destruct (nth_error_lt_Some syms (Z.to_nat s)) as [sy Hsy]; [lia|].
    rewrite Hsy. unfold name_is, sym_name. rewrite Hsy, strcmp_name, land_1_mod, Hodd. cbn [negb Z.eqb Pos.eqb].
    destruct (Z.land v (Z.lnot 1) =? hv); cbn [andb bind]; [|reflexivity].
    destruct (cstr_eqb _ name); cbn [bind]; [|reflexivity].
    rewrite (on_match_spec versym syms) by (auto; lia). cbn [bind scan].
    destruct versym as [vs|]; [|reflexivity]. destruct (version_of vs s >? snd st); reflexivity.
  - pose proof (nth_error_Some_lt _ _ _ Hv) as Hlt.
    destruct (gnu_chain_hd _ _ _ _ Hc) as (r' & ->).
    destruct (gnu_chain_range _ _ _ _ Hc (s + 1)) as [_ Hlt1]; [left; auto|].
    rewrite u32_small by (unfold two32 in *; lia). rewrite Hv.
    destruct (nth_error_lt_Some syms (Z.to_nat s)) as [sy Hsy]; [lia|].
    rewrite Hsy. unfold name_is at 1, sym_name at 1. rewrite Hsy, strcmp_name, land_1_mod, Hev. cbn [negb Z.eqb].
    rewrite (u32_small (s + 1)) by (unfold two32 in *; lia).
    destruct (Z.land v (Z.lnot 1) =? hv); cbn [andb bind]; [|rewrite IH by lia; reflexivity].
    destruct (cstr_eqb _ name); cbn [bind]; [|rewrite IH by lia; reflexivity].
    rewrite (on_match_spec versym syms) by (auto; lia). cbn [bind scan].
    destruct versym as [vs|]; [|reflexivity]. destruct (version_of vs s >? snd st); cbn [bind]; rewrite IH by lia; reflexivity.
Qed.

Lemma skipn_app_exact {A} (a b : list A) n : n = length a -> skipn n (a ++ b) = b.
Proof. intros ->. rewrite skipn_app, skipn_all, Nat.sub_diag. reflexivity. Qed.

Lemma filter_ext_In {A} (f g : A -> bool) l : (forall x, In x l -> f x = g x) -> filter f l = filter g l.
Proof.
  induction l as [|x l IH]; intros H; cbn; auto. rewrite (H x) by (left; auto).
  rewrite IH by (intros; apply H; right; auto). reflexivity.
Qed.

Lemma gnu_lookup_thm name syms versym str words nb symndx buckets vals :
  wf_gnu syms str words nb symndx buckets vals -> versym_ok versym syms -> plain name ->
  exists r s ch, lookup_gnu_hash_symbol name syms versym str words = Ok r /\
    nth_error buckets (Z.to_nat (gnu_hash_abi name mod nb)) = Some s /\
    (s = 0 /\ ch = [] \/ gnu_chain vals symndx s ch) /\
    selects versym (filter (name_is syms str name) ch) r.
Proof.
  intros [(mw & sh & bloom & Hw & Hb & Hmw) (Hnb & Hbl) (Hsx & H32) Hvl Hch Hcov] HV HA.
  unfold lookup_gnu_hash_symbol. rewrite Hw. cbn [app].
  rewrite (skipn_app_exact bloom) by lia. rewrite (skipn_app_exact buckets) by lia.
  destruct (Z.eqb_spec nb 0); [lia|]. rewrite (gnu_hash_plain _ HA).
  pose proof (Z.mod_pos_bound (gnu_hash_abi name) nb Hnb) as Hm.
  destruct (nth_error_lt_Some buckets (Z.to_nat (gnu_hash_abi name mod nb))) as [s Hs]; [lia|].
  rewrite nth_error_app1 by lia. rewrite Hs.
  destruct (Hch _ _ Hs) as [->|[ch HC]].
  - exists None, 0, []. rewrite Z.eqb_refl. split; [auto|]. split; [auto|]. split; [auto|]. apply (scan_selects versym []).
  - destruct (gnu_chain_hd _ _ _ _ HC) as (r' & Er).
    destruct (gnu_chain_range _ _ _ _ HC s) as [HR1 HR2]; [subst; left; auto|].
    destruct (Z.eqb_spec s 0); [lia|].
    change (2 ^ 32) with two32 in H32.
    rewrite (gnu_loop_chain name syms versym str vals symndx _ HV) with (ch := ch); auto; try lia.
    2:{ pose proof (gnu_chain_length _ _ _ _ HC). lia. }
    eexists _, s, ch. split; [reflexivity|]. split; [auto|]. split; [auto|].
    match goal with |- selects _ ?a (scan _ ?b _) => assert (E : b = a) end.
    { apply filter_ext_In. intros i Hi. destruct (gnu_chain_range _ _ _ _ HC i Hi) as [HI1 HI2].
      destruct (nth_error_lt_Some vals (Z.to_nat (i - symndx))) as [v Hv]; [lia|]. rewrite Hv.
      destruct (name_is syms str name i) eqn:Hni; [|rewrite andb_false_r; reflexivity]. rewrite andb_true_r.
      unfold name_is in Hni. destruct (sym_name syms str i) as [nn|] eqn:Hsn; [|discriminate].
      unfold cstr_eqb in Hni. destruct (cstr_eq_dec nn name) as [->|]; [|discriminate].
      destruct (Hcov i name) as [(v' & Hv' & Hh) _]; [lia|auto|].
      rewrite Hv in Hv'. injection Hv' as <-. rewrite !land_lnot1, Hh. apply Z.eqb_refl. }
    rewrite E. apply scan_selects.
Qed.

Lemma name_is_spec syms str name i : name_is syms str name i = true <-> sym_name syms str i = Some name.
Proof.
  unfold name_is. destruct (sym_name syms str i) as [n|]; [|split; discriminate].
  unfold cstr_eqb. destruct (cstr_eq_dec n name) as [->|H]; split; congruence.
Qed.

Lemma selects_some versym ms r i : selects versym ms r -> In i ms ->
  match versym with None => True | Some vs => 0 < version_of vs i end -> exists j, r = Some j /\ In j ms.
Proof.
  destruct versym as [vs|]; cbn.
  - destruct r as [j|]; intros H Hi Hv.
    + destruct H as (l1 & l2 & -> & _). exists j. split; auto. apply in_elt.
    + specialize (H i Hi). lia.
  - intros -> Hi _. destruct ms as [|j ms]; [destruct Hi|]. exists j. cbn. auto.
Qed.

Lemma selects_in versym ms j : selects versym ms (Some j) -> In j ms.
Proof.
  destruct versym as [vs|]; cbn.
  - intros (l1 & l2 & -> & _). apply in_elt.
  - destruct ms as [|k ms]; intros H; inversion H; left; auto.
Qed.

Lemma gnu_complete_thm name syms versym str words nb symndx buckets vals i :
  wf_gnu syms str words nb symndx buckets vals -> versym_ok versym syms -> plain name ->
  symndx <= i < Z.of_nat (length syms) -> sym_name syms str i = Some name ->
  match versym with None => True | Some vs => 0 < version_of vs i end ->
  exists j, lookup_gnu_hash_symbol name syms versym str words = Ok (Some j) /\ sym_name syms str j = Some name.
Proof.
  intros W HV HA Hi Hn Hver.
  destruct (gnu_lookup_thm name syms versym str words nb symndx buckets vals W HV HA) as (r & s & ch & H1 & H2 & H3 & H4).
  destruct (wg_cover _ _ _ _ _ _ _ W i name Hi Hn) as [_ (s' & ch' & Hs' & Hc' & Hin)].
  rewrite H2 in Hs'. injection Hs' as <-.
  assert (ch = ch').
  { destruct H3 as [[-> ->]|H3]; [|eapply gnu_chain_fun; eauto].
    destruct (gnu_chain_hd _ _ _ _ Hc') as (r' & ->). destruct (gnu_chain_range _ _ _ _ Hc' 0) as [? _]; [left; auto|].
    pose proof (proj1 (wg_ndx _ _ _ _ _ _ _ W)). lia. }
  subst ch'. destruct (selects_some _ _ _ i H4) as (j & -> & Hj); auto.
  { apply filter_In. split; auto. apply name_is_spec; auto. }
  exists j. split; auto. apply filter_In in Hj as [_ Hj]. apply name_is_spec; auto.
Qed.

(** a name that is not plain is never found *)
Lemma gnu_missing_thm name syms versym str words nb symndx buckets vals :
  wf_gnu syms str words nb symndx buckets vals -> versym_ok versym syms -> Forall (fun c => 0 <= c <= 255) name -> ~ plain name ->
  lookup_gnu_hash_symbol name syms versym str words = Ok None.
Proof.
  intros [(mw & sh & bloom & Hw & Hb & Hmw) (Hnb & Hbl) (Hsx & H32) Hvl Hch Hcov] HV HB HN.
  unfold lookup_gnu_hash_symbol. rewrite Hw. cbn [app].
  rewrite (skipn_app_exact bloom) by lia. rewrite (skipn_app_exact buckets) by lia.
  destruct (Z.eqb_spec nb 0); [lia|]. set (h := gnu_hash_func name).
  pose proof (Z.mod_pos_bound h nb Hnb) as Hm.
  destruct (nth_error_lt_Some buckets (Z.to_nat (h mod nb))) as [s Hs]; [lia|].
  rewrite nth_error_app1 by lia. rewrite Hs.
  destruct (Hch _ _ Hs) as [->|[ch HC]]; [reflexivity|].
  destruct (gnu_chain_hd _ _ _ _ HC) as (r' & Er).
  destruct (gnu_chain_range _ _ _ _ HC s) as [HR1 HR2]; [subst; left; auto|].
  destruct (Z.eqb_spec s 0); [lia|].
  change (2 ^ 32) with two32 in H32.
  rewrite (gnu_loop_chain name syms versym str vals symndx _ HV) with (ch := ch); auto; try lia.
  2:{ pose proof (gnu_chain_length _ _ _ _ HC). lia. }
  match goal with |- context [scan _ ?b _] => assert (E : b = []) end; [|rewrite E; reflexivity].
  assert (HF : forall f (l : list Z), (forall x, In x l -> f x = false) -> filter f l = []).
  { intros f l. induction l as [|x l IH]; intros H; cbn; [auto|]. rewrite (H x) by (left; auto). apply IH. intros; apply H; right; auto. }
  apply HF. intros i Hi. destruct (gnu_chain_range _ _ _ _ HC i Hi) as [HI1 HI2].
  destruct (nth_error_lt_Some vals (Z.to_nat (i - symndx))) as [v Hv]; [lia|]. rewrite Hv.
  destruct (name_is syms str name i) eqn:Hni; [|apply andb_false_r]. rewrite andb_true_r. apply name_is_spec in Hni.
  destruct (Hcov i name) as [(v' & Hv' & Hh) _]; [lia|auto|]. rewrite Hv in Hv'. injection Hv' as <-.
  apply Z.eqb_neq. rewrite !land_lnot1. intros Q. apply HN. apply gnu_hash_half; [auto|]. fold h. lia.
Qed.

(** *** soundness, for arbitrary tables *)
Lemma on_match_inl versym cur st r : on_match versym cur st = Ok (inl r) -> r = Some cur.
Proof.
  destruct versym as [vs|]; cbn; [|intros H; injection H; auto].
  destruct (nth_error vs _) as [v|]; [|discriminate]. destruct (_ >? _); discriminate.
Qed.
Lemma on_match_inr versym cur st st' : on_match versym cur st = Ok (inr st') -> fst st' = Some cur \/ st' = st.
Proof.
  destruct versym as [vs|]; cbn; [|discriminate].
  destruct (nth_error vs _) as [v|]; [|discriminate]. destruct (_ >? _); intros H; injection H as <-; auto.
Qed.

Lemma gnu_loop_sound name syms versym str vals symndx hv : forall fuel cur st i,
  (forall j, fst st = Some j -> sym_name syms str j = Some name) ->
  gnu_loop fuel name syms versym str vals symndx hv cur st = Ok (Some i) -> sym_name syms str i = Some name.
Proof.
  induction fuel as [|f IH]; intros cur st i Hst; cbn [gnu_loop]; [discriminate|].
  destruct (nth_error vals _) as [v|]; [|discriminate].
  assert (Hnext : forall st', (forall j, fst st' = Some j -> sym_name syms str j = Some name) ->
     (if negb (Z.land v 1 =? 0) then Ok (fst st') else gnu_loop f name syms versym str vals symndx hv (u32 (cur + 1)) st') = Ok (Some i) ->
     sym_name syms str i = Some name).
  { intros st' Hst'. destruct (negb _); [intros H; injection H as H; auto|apply IH; auto]. }
  destruct (Z.land v (Z.lnot 1) =? hv); [|cbn [bind]; apply Hnext; auto].
  destruct (nth_error syms (Z.to_nat cur)) as [s|] eqn:Hs; [|discriminate].
  destruct (libc_strcmp name (str (st_name s)) =? 0) eqn:Hc; [|cbn [bind]; apply Hnext; auto].
  assert (Hcur : sym_name syms str cur = Some name).
  { unfold sym_name. rewrite Hs. f_equal. symmetry. apply libc_strcmp_eq0. apply Z.eqb_eq; auto. }
  destruct (on_match versym cur st) as [[r|st']|] eqn:Hm; cbn [bind]; [| |discriminate].
  - apply on_match_inl in Hm. subst r. intros H; injection H as <-; auto.
  - apply on_match_inr in Hm. apply Hnext. intros j Hj. destruct Hm as [Hm| ->]; auto. congruence.
Qed.

Lemma elf_loop_sound name syms versym str chains : forall fuel y st i,
  (forall j, fst st = Some j -> sym_name syms str j = Some name) ->
  elf_loop fuel name syms versym str chains y st = Ok (Some i) -> sym_name syms str i = Some name.
Proof.
  induction fuel as [|f IH]; intros y st i Hst; cbn [elf_loop].
  - destruct (y =? 0); [intros H; injection H as H; auto|discriminate].
  - destruct (y =? 0); [intros H; injection H as H; auto|].
    destruct (nth_error syms (Z.to_nat y)) as [s|] eqn:Hs; [|discriminate].
    assert (Hnext : forall st', (forall j, fst st' = Some j -> sym_name syms str j = Some name) ->
      match nth_error chains (Z.to_nat y) with Some y' => elf_loop f name syms versym str chains y' st' | None => Fault OutOfBounds end = Ok (Some i) ->
      sym_name syms str i = Some name).
    { intros st' Hst'. destruct (nth_error chains _); [apply IH; auto|discriminate]. }
    destruct (libc_strcmp name (str (st_name s)) =? 0) eqn:Hc; [|cbn [bind]; apply Hnext; auto].
    assert (Hcur : sym_name syms str y = Some name).
    { unfold sym_name. rewrite Hs. f_equal. symmetry. apply libc_strcmp_eq0. apply Z.eqb_eq; auto. }
    destruct (on_match versym y st) as [[r|st']|] eqn:Hm; cbn [bind]; [| |discriminate].
    + apply on_match_inl in Hm. subst r. intros H; injection H as <-; auto.
    + apply on_match_inr in Hm. apply Hnext. intros j Hj. destruct Hm as [Hm| ->]; auto. congruence.
Qed.

Lemma lookup_sound_thm name syms versym str words i :
  lookup_gnu_hash_symbol name syms versym str words = Ok (Some i) \/
  lookup_elf_hash_symbol name syms versym str words = Ok (Some i) ->
  sym_name syms str i = Some name.
Proof.
  intros [H|H].
  - unfold lookup_gnu_hash_symbol in H. destruct words as [|nb [|sx [|mw [|sh rest]]]]; try discriminate.
    destruct (nb =? 0); [discriminate|]. destruct (nth_error _ _) as [c|]; [|discriminate].
    destruct (c =? 0); [discriminate|]. eapply gnu_loop_sound; [|exact H]. cbn; discriminate.
  - unfold lookup_elf_hash_symbol in H. destruct words as [|nb [|nc rest]]; try discriminate.
    destruct (nb =? 0); [discriminate|]. destruct (nth_error _ _) as [c|]; [|discriminate].
    eapply elf_loop_sound; [|exact H]. cbn; discriminate.
Qed.

(** *** SysV hash *)
Lemma testbit_high a k n : 0 <= a < 2 ^ k -> 0 <= k <= n -> Z.testbit a n = false.
Proof.
  intros Ha Hk. destruct (Z.eq_dec a 0) as [->|]; [apply Z.bits_0|]. apply Z.bits_above_log2; [lia|].
  apply Z.log2_lt_pow2; [lia|]. assert (2 ^ k <= 2 ^ n) by (apply Z.pow_le_mono_r; lia). lia.
Qed.

Lemma land_high t : 0 <= t < 2 ^ 32 -> Z.land t 4026531840 = (t / 2 ^ 28) * 2 ^ 28.
Proof.
  intros Ht. replace 4026531840 with (Z.shiftl (Z.ones 4) 28) by reflexivity.
  rewrite <- Z.shiftl_mul_pow2 by lia. rewrite <- Z.shiftr_div_pow2 by lia.
  apply Z.bits_inj'. intros n Hn. rewrite Z.land_spec, !Z.shiftl_spec by lia.
  destruct (Z.le_gt_cases 28 n).
  - rewrite Z.shiftr_spec by lia. replace (n - 28 + 28) with n by lia.
    destruct (Z.lt_ge_cases n 32).
    + rewrite Z.ones_spec_low by lia. apply andb_true_r.
    + rewrite Z.ones_spec_high by lia. rewrite andb_false_r.
      symmetry. destruct (Z.eq_dec t 0) as [->|]; [apply Z.bits_0|]. apply Z.bits_above_log2; [lia|].
      apply Z.log2_lt_pow2; [lia|]. assert (2 ^ 32 <= 2 ^ n) by (apply Z.pow_le_mono_r; lia). lia.
  - rewrite (Z.testbit_neg_r (Z.ones 4)), (Z.testbit_neg_r (Z.shiftr t 28)) by lia. apply andb_false_r.
Qed.

Lemma elf_hash_step_spec h c : 0 <= h < 2 ^ 28 -> 0 <= c <= 255 ->
  elf_hash_step h c = sysv_step h c /\ 0 <= sysv_step h c < 2 ^ 28.
Proof.
  intros Hh Hc. unfold elf_hash_step, sysv_step.
  assert (E : u32 (u32 (Z.shiftl h 4) + c) = (h * 16 + c) mod 2 ^ 32).
  { rewrite Z.shiftl_mul_pow2 by lia. change (2 ^ 4) with 16. unfold u32, two32. change (2 ^ 32) with 4294967296.
    rewrite Zplus_mod_idemp_l. reflexivity. }
  rewrite E. set (t := (h * 16 + c) mod 2 ^ 32).
  assert (Ht : 0 <= t < 2 ^ 32) by (apply Z.mod_pos_bound; lia).
  set (q := t / 2 ^ 28). assert (Hq : 0 <= q < 16).
  { split; [apply Z.div_pos; lia|]. apply Z.div_lt_upper_bound; lia. }
  rewrite (land_high t Ht). fold q.
  assert (Hq24 : Z.shiftr (q * 2 ^ 28) 24 = q * 16).
  { rewrite Z.shiftr_div_pow2 by lia. replace (q * 2 ^ 28) with (q * 16 * 2 ^ 24) by ring. apply Z.div_mul. lia. }
  rewrite Hq24.
  assert (Htm : t = q * 2 ^ 28 + t mod 2 ^ 28) by (unfold q; pose proof (Z.div_mod t (2 ^ 28)); lia).
  set (m := t mod 2 ^ 28) in *. assert (Hm : 0 <= m < 2 ^ 28) by (apply Z.mod_pos_bound; lia).
  assert (Hlor : q * 2 ^ 28 + m = Z.lor (Z.shiftl q 28) m).
  { rewrite <- Z.shiftl_mul_pow2 by lia. rewrite Z.add_nocarry_lxor; [rewrite Z.lxor_lor; auto|]; 
    (apply Z.bits_inj'; intros n Hn; rewrite Z.land_spec, Z.bits_0;
     destruct (Z.lt_ge_cases n 28);
     [rewrite Z.shiftl_spec_low by lia; reflexivity|rewrite (testbit_high m 28) by lia; apply andb_false_r]). }
  assert (Hxr : 0 <= Z.lxor m (q * 16) < 2 ^ 28).
  { assert (0 <= Z.lxor m (q * 16)) by (apply Z.lxor_nonneg; lia). split; [auto|].
    destruct (Z.eq_dec (Z.lxor m (q * 16)) 0) as [->|]; [lia|]. apply Z.log2_lt_pow2; [lia|].
    eapply Z.le_lt_trans; [apply Z.log2_lxor; lia|]. apply Z.max_lub_lt.
    - destruct (Z.eq_dec m 0) as [->|]; [cbn; lia|]. apply Z.log2_lt_pow2; lia.
    - destruct (Z.eq_dec q 0) as [->|]; [cbn; lia|]. apply Z.log2_lt_pow2; lia. }
  split; [|exact Hxr].
  assert (Hx : (if negb (q * 2 ^ 28 =? 0) then Z.lxor t (q * 16) else t) = Z.lxor t (q * 16)).
  { destruct (Z.eqb_spec (q * 2 ^ 28) 0) as [E0|]; [|reflexivity]. cbn [negb].
    assert (q = 0) by lia. subst q. replace (t / 2 ^ 28 * 16) with 0 by lia. rewrite Z.lxor_0_r. reflexivity. }
  rewrite Hx. apply Z.bits_inj'. intros n Hn.
  rewrite Z.land_spec, Z.lnot_spec, !Z.lxor_spec by auto.
  rewrite Htm at 1. rewrite Hlor, Z.lor_spec. rewrite <- (Z.shiftl_mul_pow2 q 28) by lia.
  destruct (Z.lt_ge_cases n 28).
  - rewrite !(Z.shiftl_spec_low q) by lia. cbn. rewrite andb_true_r. reflexivity.
  - assert (Hmn : Z.testbit m n = false).
    { destruct (Z.eq_dec m 0) as [->|]; [apply Z.bits_0|]. apply Z.bits_above_log2; [lia|].
      apply Z.log2_lt_pow2; [lia|]. assert (2 ^ 28 <= 2 ^ n) by (apply Z.pow_le_mono_r; lia). lia. }
    assert (Hqn : Z.testbit (q * 16) n = false).
    { destruct (Z.eq_dec q 0) as [->|]; [apply Z.bits_0|]. apply Z.bits_above_log2; [lia|].
      apply Z.log2_lt_pow2; [lia|]. assert (2 ^ 28 <= 2 ^ n) by (apply Z.pow_le_mono_r; lia). lia. }
    rewrite Hmn, Hqn. rewrite orb_false_r, !xorb_false_r. apply andb_negb_r.
Qed.

Lemma elf_hash_abi s : Forall (fun c => 0 <= c <= 255) s ->
  elf_hash s = sysv_hash_abi s /\ 0 <= elf_hash s < 2 ^ 28.
Proof.
  unfold elf_hash, sysv_hash_abi.
  assert (HG : forall s h, 0 <= h < 2 ^ 28 -> Forall (fun c => 0 <= c <= 255) s ->
    fold_left elf_hash_step s h = fold_left sysv_step s h /\ 0 <= fold_left elf_hash_step s h < 2 ^ 28).
  { clear s. induction s as [|c s IH]; intros h Hh HF; cbn [fold_left]; [auto|].
    inversion HF as [|? ? Hc Hs]; subst. destruct (elf_hash_step_spec h c Hh Hc) as [E R]. rewrite E. apply IH; auto. }
  intros HF. apply HG; auto. lia.
Qed.

(** *** SysV lookup *)
Lemma sysv_chain_fun chains s ch : sysv_chain chains s ch -> forall ch', sysv_chain chains s ch' -> ch = ch'.
Proof.
  induction 1 as [|y y' r Hy Hn Hc IH]; intros ch' H'; inversion H'; subst; try lia; auto.
  f_equal. apply IH. congruence.
Qed.

Lemma sysv_chain_suffix chains s ch : sysv_chain chains s ch -> forall l1 i l2, ch = l1 ++ i :: l2 -> sysv_chain chains i (i :: l2).
Proof.
  induction 1 as [|y y' r Hy Hn Hc IH]; intros l1 i l2 E.
  - destruct l1; discriminate.
  - destruct l1 as [|a l1]; cbn in E; injection E as -> ->.
    + econstructor; eauto.
    + eapply IH; reflexivity.
Qed.

Lemma sysv_chain_nodup chains s ch : sysv_chain chains s ch -> NoDup ch.
Proof.
  induction 1 as [|y y' r Hy Hn Hc IH]; constructor; auto.
  intros Hin. apply in_split in Hin as (l1 & l2 & ->).
  assert (H1 : sysv_chain chains y (y :: l1 ++ y :: l2)) by (econstructor; eauto).
  pose proof (sysv_chain_suffix _ _ _ H1 (y :: l1) y l2 eq_refl) as H2.
  pose proof (sysv_chain_fun _ _ _ H1 _ H2) as E. apply (f_equal (@length Z)) in E.
  cbn in E. rewrite app_length in E. cbn in E. lia.
Qed.

Lemma sysv_chain_range chains s ch : sysv_chain chains s ch -> forall i, In i ch -> 0 < i < Z.of_nat (length chains).
Proof.
  induction 1 as [|y y' r Hy Hn Hc IH]; intros i Hi; [destruct Hi|].
  destruct Hi as [<-|Hi]; auto. apply nth_error_Some_lt in Hn. lia.
Qed.

Lemma sysv_chain_length chains s ch : sysv_chain chains s ch -> (length ch <= length chains)%nat.
Proof.
  intros H. pose proof (sysv_chain_nodup _ _ _ H) as HN. pose proof (sysv_chain_range _ _ _ H) as HR.
  rewrite <- (map_length Z.to_nat). rewrite <- (seq_length (length chains) 0).
  apply NoDup_incl_length.
  - clear - HN HR. induction HN as [|x l Hx HN IH]; cbn; constructor.
    + intros Hin. apply in_map_iff in Hin as (z & E & Hz). assert (z = x); [|congruence].
      pose proof (HR x (or_introl eq_refl)). pose proof (HR z (or_intror Hz)). lia.
    + apply IH. intros i Hi. apply HR. right; auto.
  - intros n Hn. apply in_map_iff in Hn as (z & <- & Hz). apply in_seq. specialize (HR z Hz). lia.
Qed.

Lemma elf_loop_chain name syms versym str chains : versym_ok versym syms -> (length chains <= length syms)%nat ->
  forall y ch, sysv_chain chains y ch -> forall fuel st, (length ch <= fuel)%nat ->
  elf_loop fuel name syms versym str chains y st = Ok (scan versym (filter (name_is syms str name) ch) st).
Proof.
  intros HV HL. induction 1 as [|y y' r Hy Hn Hc IH]; intros fuel st Hf.
  - destruct fuel; reflexivity.
  - cbn [length] in Hf. destruct fuel as [|fuel]; [lia|]. cbn [elf_loop filter].
    destruct (Z.eqb_spec y 0); [lia|]. pose proof (nth_error_Some_lt _ _ _ Hn) as Hlt.
    destruct (nth_error_lt_Some syms (Z.to_nat y)) as [s Hs]; [lia|]. rewrite Hs, Hn.
    unfold name_is at 1, sym_name at 1. rewrite Hs, strcmp_name.
    destruct (cstr_eqb _ name); cbn [bind]; [|apply IH; lia].
    rewrite (on_match_spec versym syms) by (auto; lia). cbn [bind scan].
    destruct versym as [vs|]; [|reflexivity]. destruct (version_of vs y >? snd st); rewrite IH by lia; reflexivity.
Qed.

Lemma sysv_lookup_thm name syms versym str words nb buckets chains :
  wf_sysv syms str words nb buckets chains -> versym_ok versym syms -> Forall (fun c => 0 <= c <= 255) name ->
  exists r s ch, lookup_elf_hash_symbol name syms versym str words = Ok r /\
    nth_error buckets (Z.to_nat (sysv_hash_abi name mod nb)) = Some s /\
    sysv_chain chains s ch /\ selects versym (filter (name_is syms str name) ch) r.
Proof.
  intros [(nc & Hw) [Hnb Hbl] Hl Hch Hcov] HV HB.
  unfold lookup_elf_hash_symbol. rewrite Hw. rewrite (skipn_app_exact buckets) by lia.
  destruct (Z.eqb_spec nb 0); [lia|]. destruct (elf_hash_abi name HB) as [-> _].
  pose proof (Z.mod_pos_bound (sysv_hash_abi name) nb Hnb) as Hm.
  destruct (nth_error_lt_Some buckets (Z.to_nat (sysv_hash_abi name mod nb))) as [s Hs]; [lia|].
  rewrite nth_error_app1 by lia. rewrite Hs. destruct (Hch _ _ Hs) as [ch HC].
  rewrite (elf_loop_chain name syms versym str chains HV) with (ch := ch); auto; try lia.
  2:{ pose proof (sysv_chain_length _ _ _ HC). lia. }
  eexists _, s, ch. split; [reflexivity|]. split; [auto|]. split; [auto|]. apply scan_selects.
Qed.

Lemma sysv_complete_thm name syms versym str words nb buckets chains i :
  wf_sysv syms str words nb buckets chains -> versym_ok versym syms -> Forall (fun c => 0 <= c <= 255) name ->
  0 < i < Z.of_nat (length syms) -> sym_name syms str i = Some name ->
  match versym with None => True | Some vs => 0 < version_of vs i end ->
  exists j, lookup_elf_hash_symbol name syms versym str words = Ok (Some j) /\ sym_name syms str j = Some name.
Proof.
  intros W HV HB Hi Hn Hver.
  destruct (sysv_lookup_thm name syms versym str words nb buckets chains W HV HB) as (r & s & ch & H1 & H2 & H3 & H4).
  destruct (ws_cover _ _ _ _ _ _ W i name Hi Hn) as (s' & ch' & Hs' & Hc' & Hin).
  rewrite H2 in Hs'. injection Hs' as <-.
  assert (ch = ch') by (eapply sysv_chain_fun; eauto). subst ch'.
  destruct (selects_some _ _ _ i H4) as (j & -> & Hj); auto.
  { apply filter_In. split; auto. apply name_is_spec; auto. }
  exists j. split; auto. apply filter_In in Hj as [_ Hj]. apply name_is_spec; auto.
Qed.

(** *** dynamic section *)
Lemma dyn_get_app es t v tag d : dyn_get (es ++ [(t, v)]) tag d = if t =? tag then v else dyn_get es tag d.
Proof. unfold dyn_get. rewrite rev_app_distr. cbn. destruct (t =? tag); reflexivity. Qed.

Definition dv_of (es : list (Z * Z)) : dynvars :=
  mkDV (dyn_get es DT_RELA 0) (dyn_get es DT_REL 0) (dyn_get es DT_JMPREL 0) (dyn_get es DT_SYMTAB 0)
       (dyn_get es DT_GNU_HASH 0) (dyn_get es DT_HASH 0) (dyn_get es DT_PLTGOT 0) (dyn_get es DT_VERSYM 0)
       (dyn_get es DT_STRTAB 0) (u32 (dyn_get es DT_RELSZ 0)) (dyn_get es DT_PLTREL 0 =? DT_RELA)
       (u32 (dyn_get es DT_RELASZ 0)) (u32 (dyn_get es DT_RELAENT 1)) (u32 (dyn_get es DT_PLTRELSZ 0))
       (u32 (dyn_get es DT_RELENT 1)).

Lemma dv_of_app es t v : dv_of (es ++ [(t, v)]) = dyn_step (dv_of es) t v.
Proof.
  unfold dv_of, dyn_step. rewrite !dyn_get_app.
  repeat match goal with |- context [if ?a =? ?b then mkDV _ _ _ _ _ _ _ _ _ _ _ _ _ _ _ else _] =>
    destruct (Z.eqb_spec a b); [subst; reflexivity|] end.
  repeat match goal with H : t <> ?b |- _ => rewrite (proj2 (Z.eqb_neq t b) H); clear H end.
  reflexivity.
Qed.

Lemma dyn_loop_spec d : forall es0, dyn_loop d (dv_of es0) =
  match dyn_entries d with Some es => Ok (dv_of (es0 ++ es)) | None => Fault OutOfBounds end.
Proof.
  induction d as [|[t v] d IH]; intros es0; cbn [dyn_loop dyn_entries]; [reflexivity|].
  change DT_NULL with 0. destruct (t =? 0); [rewrite app_nil_r; reflexivity|].
  rewrite <- dv_of_app, IH. destruct (dyn_entries d); [|reflexivity]. rewrite <- app_assoc. reflexivity.
Qed.

Lemma dyn_get_dflt es tag a b : dyn_get es tag a = dyn_get es tag b \/ (dyn_get es tag a = a /\ dyn_get es tag b = b).
Proof. unfold dyn_get. destruct (find _ _); auto. Qed.

Lemma init_dynamic_wf m es : wf_dyn m es -> init_dynamic m = Ok (Some (dv_of es)).
Proof.
  intros [Hld Hes Hsz [He1 He2]]. unfold init_dynamic.
  destruct (Z.eqb_spec (lm_ld m) 0); [contradiction|].
  change dv_init with (dv_of []). rewrite dyn_loop_spec, Hes. cbn [app bind].
  pose proof (Hsz DT_RELENT ltac:(cbn; tauto)) as R1. pose proof (Hsz DT_RELAENT ltac:(cbn; tauto)) as R2.
  change (2 ^ 32) with two32 in *.
  cbn [dv_of dv_rel dv_rel_esz dv_rela dv_rela_esz]. rewrite !u32_small by lia.
  destruct (Z.eqb_spec (dyn_get es DT_RELENT 1) 0); [lia|]. destruct (Z.eqb_spec (dyn_get es DT_RELAENT 1) 0); [lia|].
  rewrite !andb_false_r. reflexivity.
Qed.

(** *** relocations *)
Lemma pltrel_int_spec im symtab strtab : forall count tbl,
  (count <= length tbl)%nat ->
  (forall r, In r (firstn count tbl) -> 0 <= snd r /\ (Z.to_nat (snd r / 2 ^ 32) < length (im_syms im symtab))%nat) ->
  exists l, pltrel_int im symtab strtab tbl count = Ok l /\
    map Some l = map (reloc_pair im symtab strtab) (firstn count tbl).
Proof.
  induction count as [|n IH]; intros tbl Hlen Hok; cbn [pltrel_int firstn].
  - exists []. auto.
  - destruct tbl as [|[off info] tbl]; cbn [length] in Hlen; [lia|]. cbn [firstn] in Hok.
    destruct (Hok _ (or_introl eq_refl)) as [H1 H2]. cbn [snd] in *.
    rewrite Z.shiftr_div_pow2 by lia.
    destruct (nth_error_lt_Some _ _ H2) as [s Hs]. rewrite Hs.
    destruct (IH tbl) as (l & Hl & Hm); [lia|intros; apply Hok; right; auto|].
    rewrite Hl. cbn [bind]. eexists; split; [reflexivity|]. cbn [map]. rewrite Hm. f_equal.
    unfold reloc_pair, sym_name. cbn [fst snd]. rewrite Hs. reflexivity.
Qed.

Lemma pltrel_gen m es rela : wf_dyn m es ->
  (dyn_get es DT_PLTREL 0 =? DT_RELA) = rela ->
  tables_complete m es rela ->
  exists l, for_each_pltrel m = Ok (Some l) /\
    map Some l = map (reloc_pair (lm_image m) (dyn_get es DT_SYMTAB 0) (dyn_get es DT_STRTAB 0))
                   (plt_table (lm_image m) es rela ++ data_table (lm_image m) es rela).
Proof.
  intros W Hpl (HJ & HD & HS). unfold for_each_pltrel. rewrite (init_dynamic_wf m es W). cbn [bind].
  assert (Hir : dv_is_rela (dv_of es) = rela) by exact Hpl.
  destruct W as [Hld Hes Hsz [He1 He2]].
  assert (U : forall tag d, In tag [DT_RELSZ; DT_RELENT; DT_RELASZ; DT_RELAENT; DT_PLTRELSZ] -> d = 0 \/ d = 1 -> u32 (dyn_get es tag d) = dyn_get es tag d /\ 0 <= dyn_get es tag d).
  { intros tag d Hin Hd. specialize (Hsz tag Hin). change (2 ^ 32) with two32 in Hsz.
    destruct (dyn_get_dflt es tag d 1) as [E|[E1 E2]]; [rewrite u32_small; lia|].
    rewrite E1. destruct Hd; subst; split; unfold u32; try lia; reflexivity. }
  rewrite Hir. unfold jmprel_count, rel_count, rela_count. rewrite Hir.
  cbn [dv_of dv_rel dv_rel_esz dv_rela dv_rela_esz dv_rel_size dv_rela_size dv_jmprel_size dv_symtab dv_strtab dv_jmprel].
  rewrite (proj1 (U DT_PLTRELSZ 0 ltac:(cbn; tauto) ltac:(tauto))), (proj1 (U DT_RELASZ 0 ltac:(cbn; tauto) ltac:(tauto))),
    (proj1 (U DT_RELSZ 0 ltac:(cbn; tauto) ltac:(tauto))), (proj1 (U DT_RELAENT 1 ltac:(cbn; tauto) ltac:(tauto))),
    (proj1 (U DT_RELENT 1 ltac:(cbn; tauto) ltac:(tauto))).
  pose proof (proj2 (U DT_PLTRELSZ 0 ltac:(cbn; tauto) ltac:(tauto))) as P1.
  pose proof (proj2 (U DT_RELASZ 0 ltac:(cbn; tauto) ltac:(tauto))) as P2.
  pose proof (proj2 (U DT_RELSZ 0 ltac:(cbn; tauto) ltac:(tauto))) as P3.
  destruct rela; cbn [plt_table data_table] in *; unfold table_prefix in *; cbn zeta in HJ.
  - destruct (pltrel_int_spec (lm_image m) (dyn_get es DT_SYMTAB 0) (dyn_get es DT_STRTAB 0)
        (Z.to_nat (dyn_get es DT_PLTRELSZ 0 / 24)) (im_relas (lm_image m) (dyn_get es DT_JMPREL 0))) as (l1 & H1 & M1).
    { pose proof (Z.div_pos (dyn_get es DT_PLTRELSZ 0) 24). lia. }
    { intros r Hr. apply HS. apply in_or_app; auto. }
    rewrite H1. cbn [bind].
    destruct (Z.eqb_spec (dyn_get es DT_RELA 0) 0) as [E|NE]; cbn [negb bind].
    + exists (l1 ++ []). rewrite !app_nil_r. auto.
    + destruct (pltrel_int_spec (lm_image m) (dyn_get es DT_SYMTAB 0) (dyn_get es DT_STRTAB 0)
        (Z.to_nat (dyn_get es DT_RELASZ 0 / dyn_get es DT_RELAENT 1)) (im_relas (lm_image m) (dyn_get es DT_RELA 0))) as (l2 & H2 & M2).
      { specialize (HD NE). pose proof (Z.div_pos (dyn_get es DT_RELASZ 0) (dyn_get es DT_RELAENT 1)). lia. }
      { intros r Hr. apply HS. apply in_or_app; auto. }
      rewrite H2. cbn [bind]. exists (l1 ++ l2). split; [auto|]. rewrite !map_app. congruence.
  - destruct (pltrel_int_spec (lm_image m) (dyn_get es DT_SYMTAB 0) (dyn_get es DT_STRTAB 0)
        (Z.to_nat (dyn_get es DT_PLTRELSZ 0 / 16)) (im_rels (lm_image m) (dyn_get es DT_JMPREL 0))) as (l1 & H1 & M1).
    { pose proof (Z.div_pos (dyn_get es DT_PLTRELSZ 0) 16). lia. }
    { intros r Hr. apply HS. apply in_or_app; auto. }
    rewrite H1. cbn [bind].
    destruct (Z.eqb_spec (dyn_get es DT_REL 0) 0) as [E|NE]; cbn [negb bind].
    + exists (l1 ++ []). rewrite !app_nil_r. auto.
    + destruct (pltrel_int_spec (lm_image m) (dyn_get es DT_SYMTAB 0) (dyn_get es DT_STRTAB 0)
        (Z.to_nat (dyn_get es DT_RELSZ 0 / dyn_get es DT_RELENT 1)) (im_rels (lm_image m) (dyn_get es DT_REL 0))) as (l2 & H2 & M2).
      { specialize (HD NE). pose proof (Z.div_pos (dyn_get es DT_RELSZ 0) (dyn_get es DT_RELENT 1)). lia. }
      { intros r Hr. apply HS. apply in_or_app; auto. }
      rewrite H2. cbn [bind]. exists (l1 ++ l2). split; [auto|]. rewrite !map_app. congruence.
Qed.

Lemma pltrel_thm m es rela : wf_dyn m es ->
  dyn_get es DT_PLTREL 0 = (if rela : bool then DT_RELA else DT_REL) ->
  tables_complete m es rela ->
  exists l, for_each_pltrel m = Ok (Some l) /\
    map Some l = map (reloc_pair (lm_image m) (dyn_get es DT_SYMTAB 0) (dyn_get es DT_STRTAB 0))
                   (plt_table (lm_image m) es rela ++ data_table (lm_image m) es rela).
Proof. intros W H T. apply pltrel_gen; auto. rewrite H. destruct rela; reflexivity. Qed.

(** *** mprotect *)
Lemma boundary_before_spec a k : 0 <= a < two64 -> 0 <= k < 64 -> boundary_before a (2 ^ k) = (a / 2 ^ k) * 2 ^ k.
Proof.
  intros Ha Hk. unfold boundary_before.
  assert (E : u64 (- 2 ^ k) = Z.shiftl (Z.ones (64 - k)) k).
  { assert (0 < 2 ^ k < 2 ^ 64). { split; [apply Z.pow_pos_nonneg; lia|apply Z.pow_lt_mono_r; lia]. }
    assert (HM : 2 ^ (64 - k) * 2 ^ k = two64).
    { rewrite <- Z.pow_add_r by lia. replace (64 - k + k) with 64 by lia. reflexivity. }
    assert (HR : (2 ^ (64 - k) - 1) * 2 ^ k = two64 - 2 ^ k) by lia.
    rewrite Z.shiftl_mul_pow2, Z.ones_equiv by lia. rewrite <- Z.sub_1_r, HR. unfold u64.
    symmetry. apply Z.mod_unique with (q := -1); [left; change two64 with (2 ^ 64); lia|lia]. }
  rewrite E. rewrite <- Z.shiftl_mul_pow2, <- Z.shiftr_div_pow2 by lia.
  apply Z.bits_inj'. intros n Hn. rewrite Z.land_spec, !Z.shiftl_spec by lia.
  destruct (Z.le_gt_cases k n).
  - rewrite Z.shiftr_spec by lia. replace (n - k + k) with n by lia.
    destruct (Z.lt_ge_cases n 64).
    + rewrite Z.ones_spec_low by lia. apply andb_true_r.
    + rewrite Z.ones_spec_high by lia. rewrite andb_false_r. symmetry. apply (testbit_high a 64); [|lia]. exact Ha.
  - rewrite (Z.testbit_neg_r (Z.ones _)), (Z.testbit_neg_r (Z.shiftr a k)) by lia. apply andb_false_r.
Qed.

Lemma round_up_spec x ps : 0 < ps -> 0 <= x -> x + ps <= two64 -> x <= two64 - ps -> round_up x ps = pages_for ps x * ps.
Proof.
  intros Hp Hx H64 _. unfold round_up, pages_for.
  pose proof (Z.div_mod x ps ltac:(lia)) as D. pose proof (Z.mod_pos_bound x ps Hp) as M.
  destruct (Z.eqb_spec (x mod ps) 0) as [E|E].
  - rewrite E in D. assert (Hd : (x + ps - 1) / ps = x / ps).
    { symmetry. apply Z.div_unique with (r := ps - 1); lia. }
    rewrite Hd. lia.
  - assert (Hd : (x + ps - 1) / ps = x / ps + 1).
    { symmetry. apply Z.div_unique with (r := x mod ps - 1); lia. }
    rewrite Hd, u64_small by lia. lia.
Qed.

Lemma relro_model nm addr infos :
  (forall i, In i infos -> 0 <= addr /\ forall p, In p (dlpi_phdr i) -> 0 <= p_vaddr p /\ 0 <= p_memsz p /\ addr + p_vaddr p + p_memsz p < two64) ->
  iterate_phdr (find_relro_boundary nm addr) infos = relro_range nm addr infos.
Proof.
  unfold relro_range. induction infos as [|i r IH]; intros HB; cbn [iterate_phdr find]; [reflexivity|].
  assert (E : existsb (fun p => (p_type p =? PT_LOAD) && (libc_strcmp nm (dlpi_name i) =? 0) && (addr =? dlpi_addr i)) (dlpi_phdr i)
     = cstr_eqb nm (dlpi_name i) && (addr =? dlpi_addr i) && existsb (fun p => p_type p =? PT_LOAD) (dlpi_phdr i)).
  { rewrite strcmp_name. assert (cstr_eqb (dlpi_name i) nm = cstr_eqb nm (dlpi_name i)) as ->.
    { unfold cstr_eqb. destruct (cstr_eq_dec (dlpi_name i) nm), (cstr_eq_dec nm (dlpi_name i)); congruence. }
    induction (dlpi_phdr i) as [|p ps IHp]; cbn; [rewrite !andb_false_r; auto|]. rewrite IHp.
    destruct (p_type p =? PT_LOAD), (cstr_eqb nm (dlpi_name i)), (addr =? dlpi_addr i); cbn; auto. }
  unfold find_relro_boundary at 1. rewrite E. unfold is_object at 1. change PT_LOAD with 1 in *. change PT_GNU_RELRO with 1685382482 in *.
  assert (HB' : forall j, In j r -> 0 <= addr /\ forall p, In p (dlpi_phdr j) -> 0 <= p_vaddr p /\ 0 <= p_memsz p /\ addr + p_vaddr p + p_memsz p < two64).
  { intros j Hj. apply HB. right; auto. }
  specialize (IH HB').
  destruct (cstr_eqb nm (dlpi_name i) && (addr =? dlpi_addr i) && existsb (fun p => p_type p =? 1) (dlpi_phdr i)); cbn [andb]; [|exact IH].
  destruct (find (fun p => p_type p =? 1685382482) (dlpi_phdr i)) as [p|] eqn:Hf.
  - assert (existsb (fun p => p_type p =? 1685382482) (dlpi_phdr i) = true) as ->.
    { apply existsb_exists. exists p. apply find_some in Hf. tauto. }
    rewrite Hf. apply find_some in Hf as [Hin _].
    destruct (HB i (or_introl eq_refl)) as [Ha Hp]. destruct (Hp p Hin) as (P1 & P2 & P3).
    rewrite (u64_small (addr + p_vaddr p)) by lia. rewrite u64_small by lia. reflexivity.
  - assert (existsb (fun p => p_type p =? 1685382482) (dlpi_phdr i) = false) as ->; [|exact IH].
    destruct (existsb (fun p => p_type p =? 1685382482) (dlpi_phdr i)) eqn:He; auto. apply existsb_exists in He as (p & Hin & Hp).
    pose proof (find_none _ _ Hf p Hin) as Hf2. cbn beta in Hf2, Hp. rewrite Hp in Hf2. discriminate.
Qed.

(** exactly which pages are made writable *)
Lemma mprotect_thm k infos lib es nm :
  let ps := 2 ^ k in
  wf_dyn lib es -> 0 <= k < 63 -> lm_name lib = Some nm ->
  let got := dyn_get es DT_PLTGOT 0 in
  let n := dyn_get es DT_RELSZ 0 in
  0 < got -> got + Z.max n ps + 2 * ps < two64 ->
  (forall i, In i infos -> 0 <= lm_addr lib /\ forall p, In p (dlpi_phdr i) ->
      0 <= p_vaddr p /\ 0 <= p_memsz p /\ ps <= lm_addr lib + p_vaddr p + p_memsz p < two64 - 2 * ps) ->
  exists calls, mark_got_writable ps infos lib = Ok calls /\
   (forall a l, In (a, l) calls -> a mod ps = 0 /\ l mod ps = 0) /\
   forall pg, covers ps calls pg <->
     (page ps got <= pg < page ps got + Z.max 1 (pages_for ps n)) \/
     (exists s e, relro_range nm (lm_addr lib) infos = Some (s, e) /\ page ps s <= pg < pages_for ps e).
Proof.
  intros ps W Hk Hnm got n Hgot H64 HP.
  assert (Hps : 0 < ps < 2 ^ 63). { split; [apply Z.pow_pos_nonneg; lia|apply Z.pow_lt_mono_r; lia]. }
  unfold mark_got_writable. rewrite (init_dynamic_wf lib es W). cbn [bind].
  cbn [dv_of dv_got dv_rel_size]. fold got.
  destruct (Z.eqb_spec got 0); [lia|]. destruct (Z.eqb_spec ps 0); [lia|]. rewrite Hnm.
  assert (Hn : u32 (dyn_get es DT_RELSZ 0) = n /\ 0 <= n < 2 ^ 32).
  { pose proof (wd_sizes _ _ W DT_RELSZ ltac:(cbn; tauto)) as R. unfold n. change two32 with (2 ^ 32).
    destruct (dyn_get_dflt es DT_RELSZ 0 1) as [E|[E1 E2]]; [rewrite u32_small; rewrite E; auto|rewrite E1; split; [reflexivity|lia]]. }
  destruct Hn as [-> Hn].
  set (q := Z.max 1 (pages_for ps n)).
  assert (HS : round_up (Z.max n ps) ps = q * ps).
  { rewrite round_up_spec by lia. f_equal. unfold q, pages_for.
    destruct (Z.max_spec n ps) as [[Hlt ->]|[Hge ->]].
    - assert ((n + ps - 1) / ps <= 1). { apply Z.lt_succ_r. apply Z.div_lt_upper_bound; lia. }
      replace ((ps + ps - 1) / ps) with 1; [lia|]. apply Z.div_unique with (r := ps - 1); lia.
    - assert (1 <= (n + ps - 1) / ps). { apply Z.div_le_lower_bound; lia. } lia. }
  assert (Hbb : forall a, 0 <= a < two64 -> boundary_before a ps = (a / ps) * ps) by (intros a Ha; apply boundary_before_spec; lia).
  rewrite HS. rewrite Hbb by lia. set (g := got / ps).
  assert (Hq : 1 <= q) by (unfold q; lia).
  assert (Hg : 0 <= g) by (apply Z.div_pos; lia).
  assert (Hgp : g * ps <= got) by (unfold g; pose proof (Z.mul_div_le got ps); lia).
  assert (Hqp : q * ps <= Z.max n ps + ps).
  { unfold q, pages_for. pose proof (Z.mul_div_le (n + ps - 1) ps). nia. }
  rewrite relro_model.
  2:{ intros i Hi. destruct (HP i Hi) as [Ha Hp]. split; auto. intros p Hin. specialize (Hp p Hin). lia. }
  assert (Hpage : forall x, page ps (x * ps) = x) by (intros x; apply Z.div_mul; lia).
  assert (Hmod : forall x, (x * ps) mod ps = 0) by (intros x; apply Z.mod_mul; lia).
  assert (Hpg : page ps got = g) by reflexivity. rewrite Hpg.
  destruct (relro_range nm (lm_addr lib) infos) as [[s e]|] eqn:HR.
  - assert (HSE : 0 <= s <= e /\ ps <= e < two64 - 2 * ps).
    { unfold relro_range in HR. destruct (find (is_object nm (lm_addr lib)) infos) as [i|] eqn:Hf; [|discriminate].
      destruct (find _ (dlpi_phdr i)) as [p|] eqn:Hf2; [|discriminate]. injection HR as <- <-.
      apply find_some in Hf as [Hf _]. apply find_some in Hf2 as [Hf2 _]. destruct (HP i Hf) as [Ha Hp].
      specialize (Hp p Hf2). lia. }
    rewrite Z.max_l by lia. rewrite (round_up_spec e ps) by lia. rewrite Hbb by lia.
    set (a := s / ps). set (b := pages_for ps e).
    assert (Hab : 0 <= a <= b /\ b * ps <= e + ps).
    { unfold a, b, pages_for. pose proof (Z.mul_div_le (e + ps - 1) ps). split; [|lia].
      split; [apply Z.div_pos; lia|apply Z.div_le_mono; lia]. }
    assert (Hspg : page ps s = a) by reflexivity.
    assert (E1 : u64 (b * ps - a * ps) = (b - a) * ps) by (rewrite u64_small; nia).
    assert (E2 : u64 (g * ps + q * ps) = (g + q) * ps) by (rewrite u64_small; nia).
    assert (E3 : u64 (a * ps + (b - a) * ps) = b * ps) by (rewrite u64_small; nia).
    rewrite E1, E2, E3.
    destruct (Z.eqb_spec (a * ps) ((g + q) * ps)) as [Ea|Ea].
    + assert (a = g + q) by nia.
      assert (E4 : u64 (q * ps + (b - a) * ps) = (b - g) * ps) by (rewrite u64_small; nia). rewrite E4.
      eexists; split; [reflexivity|]. split.
      * intros x l [H1|[]]. injection H1 as <- <-. auto.
      * intros pg. split.
        -- intros (x & l & [H0|[]] & Hc). injection H0 as <- <-. rewrite Hpage in Hc.
           replace (g * ps + (b - g) * ps) with (b * ps) in Hc by ring. rewrite Hpage in Hc.
           destruct (Z.lt_ge_cases pg a); [left; lia|right; exists s, e; rewrite Hspg; split; auto; fold b; lia].
        -- intros H0. exists (g * ps), ((b - g) * ps). split; [left; auto|].
           replace (g * ps + (b - g) * ps) with (b * ps) by ring. rewrite !Hpage.
           destruct H0 as [H0|(s' & e' & HH & H0)]; [lia|]. injection HH as <- <-. rewrite Hspg in H0. fold b in H0. lia.
    + destruct (Z.eqb_spec (g * ps) (b * ps)) as [Eb|Eb].
      * assert (g = b) by nia.
        assert (E4 : u64 (q * ps + (b - a) * ps) = (g + q - a) * ps) by (rewrite u64_small; nia). rewrite E4.
        eexists; split; [reflexivity|]. split.
        -- intros x l [H1|[]]. injection H1 as <- <-. auto.
        -- intros pg. split.
           ++ intros (x & l & [H0|[]] & Hc). injection H0 as <- <-. rewrite Hpage in Hc.
              replace (a * ps + (g + q - a) * ps) with ((g + q) * ps) in Hc by ring. rewrite Hpage in Hc.
              destruct (Z.lt_ge_cases pg g); [right; exists s, e; rewrite Hspg; split; auto; fold b; lia|left; lia].
           ++ intros H0. exists (a * ps), ((g + q - a) * ps). split; [left; auto|].
              replace (a * ps + (g + q - a) * ps) with ((g + q) * ps) by ring. rewrite !Hpage.
              destruct H0 as [H0|(s' & e' & HH & H0)]; [lia|]. injection HH as <- <-. rewrite Hspg in H0. fold b in H0. lia.
      * eexists; split; [reflexivity|]. split.
        -- intros x l [H1|[H1|[]]]; injection H1 as <- <-; auto.
        -- intros pg. split.
           ++ intros (x & l & [H0|[H0|[]]] & Hc); injection H0 as <- <-; rewrite Hpage in Hc.
              ** replace (a * ps + (b - a) * ps) with (b * ps) in Hc by ring. rewrite Hpage in Hc.
                 right; exists s, e; rewrite Hspg; split; auto.
              ** replace (g * ps + q * ps) with ((g + q) * ps) in Hc by ring. rewrite Hpage in Hc. left; lia.
           ++ intros [H0|(s' & e' & HH & H0)].
              ** exists (g * ps), (q * ps). split; [right; left; auto|].
                 replace (g * ps + q * ps) with ((g + q) * ps) by ring. rewrite !Hpage. lia.
              ** injection HH as <- <-. rewrite Hspg in H0. fold b in H0.
                 exists (a * ps), ((b - a) * ps). split; [left; auto|].
                 replace (a * ps + (b - a) * ps) with (b * ps) by ring. rewrite !Hpage. lia.
  - eexists; split; [reflexivity|]. split.
    + intros x l [H1|[]]; injection H1 as <- <-; auto.
    + intros pg. split.
      * intros (x & l & [H0|[]] & Hc). injection H0 as <- <-. rewrite Hpage in Hc.
        replace (g * ps + q * ps) with ((g + q) * ps) in Hc by ring. rewrite Hpage in Hc. left; lia.
      * intros [H0|(s' & e' & HH & H0)]; [|discriminate]. exists (g * ps), (q * ps). split; [left; auto|].
        replace (g * ps + q * ps) with ((g + q) * ps) by ring. rewrite !Hpage. lia.
Qed.

(** *** lookup_exported_symbol *)
Lemma wf_index_lt (syms : list esym) str i name : sym_name syms str i = Some name -> (Z.to_nat i < length syms)%nat.
Proof. unfold sym_name. destruct (nth_error syms _) eqn:H; [|discriminate]. intros _. eapply nth_error_Some_lt; eauto. Qed.

Lemma exported_thm lib es name : wf_lookup lib es -> plain name ->
  exists r, symbol_result lib es name r /\
    lookup_exported_symbol false name lib = Ok (match r with Some i => symbol_address lib es i | None => None end).
Proof.
  intros [WD WV WG WS] HA.
  pose proof (proj1 HA) as HB.
  unfold lookup_exported_symbol. rewrite (init_dynamic_wf lib es WD). cbn [bind].
  cbn [dv_of dv_symtab dv_versym dv_strtab dv_gnu_hash dv_elf_hash].
  fold (l_syms lib es) (l_versym lib es) (l_gnu lib es) (l_sysv lib es).
  change (fun off => im_str (lm_image lib) (dyn_get es DT_STRTAB 0 + off)) with (l_str lib es).
  assert (Hfin : forall i, sym_name (l_syms lib es) (l_str lib es) i = Some name ->
    match nth_error (l_syms lib es) (Z.to_nat i) with
    | Some s => if negb (check_visibility s) then Ok None else Ok (Some (u64 (st_value s + lm_addr lib)))
    | None => Fault OutOfBounds end = Ok (symbol_address lib es i)).
  { intros i Hi. unfold symbol_address. destruct (nth_error_lt_Some _ _ (wf_index_lt _ _ _ _ Hi)) as [s Hs]. rewrite Hs.
    unfold check_visibility. rewrite Z.gtb_ltb. destruct (0 <? st_size s); reflexivity. }
  assert (HG : has_gnu es -> exists r, gnu_result lib es name r /\
     lookup_gnu_hash_symbol name (l_syms lib es) (l_versym lib es) (l_str lib es) (l_gnu lib es) = Ok r).
  { intros Hg. destruct (WG Hg) as (nb & sx & b & v & W).
    destruct (gnu_lookup_thm name _ _ _ _ _ _ _ _ W WV HA) as (r & s & ch & H1 & H2 & H3 & H4).
    exists r. split; auto. exists nb, sx, b, v, s, ch. auto. }
  assert (HS : has_sysv es -> exists r, sysv_result lib es name r /\
     lookup_elf_hash_symbol name (l_syms lib es) (l_versym lib es) (l_str lib es) (l_sysv lib es) = Ok r).
  { intros Hg. destruct (WS Hg) as (nb & b & c & W).
    destruct (sysv_lookup_thm name _ _ _ _ _ _ _ W WV HB) as (r & s & ch & H1 & H2 & H3 & H4).
    exists r. split; auto. exists nb, b, c, s, ch. auto. }
  unfold has_gnu, has_sysv in *. unfold symbol_result, has_gnu, has_sysv.
  destruct (Z.eqb_spec (dyn_get es DT_GNU_HASH 0) 0) as [Eg|Ng]; cbn [andb negb bind].
  - destruct (Z.eqb_spec (dyn_get es DT_HASH 0) 0) as [Es|Ns]; cbn [andb negb bind].
    + exists None. split; [right; split; [left|right]; auto|reflexivity].
    + destruct (HS Ns) as (r & HR & HL). rewrite HL. cbn [bind]. exists r. split; [right; split; [left; auto|left; auto]|].
      destruct r as [i|]; [|reflexivity]. apply Hfin. eapply lookup_sound_thm. right; exact HL.
  - destruct (HG Ng) as (r & HR & HL). rewrite HL. cbn [bind].
    destruct r as [i|].
    + rewrite andb_false_r. cbn [bind]. exists (Some i). split; [left; repeat split; auto; discriminate|].
      apply Hfin. eapply lookup_sound_thm. left; exact HL.
    + rewrite andb_true_r. destruct (Z.eqb_spec (dyn_get es DT_HASH 0) 0) as [Es|Ns]; cbn [andb negb bind].
      * exists None. split; [right; split; [right; auto|right; auto]|reflexivity].
      * destruct (HS Ns) as (r & HR2 & HL2). rewrite HL2. cbn [bind]. exists r. split; [right; split; [right; auto|left; auto]|].
        destruct r as [i|]; [|reflexivity]. apply Hfin. eapply lookup_sound_thm. right; exact HL2.
Qed.

(** names that are not plain are looked up in the SysV table only *)
Lemma exported_high_thm lib es name : wf_lookup lib es -> Forall (fun c => 0 <= c <= 255) name -> ~ plain name ->
  exists r, ((has_sysv es /\ sysv_result lib es name r) \/ (~ has_sysv es /\ r = None)) /\
    lookup_exported_symbol false name lib = Ok (match r with Some i => symbol_address lib es i | None => None end).
Proof.
  intros [WD WV WG WS] HB HN.
  unfold lookup_exported_symbol. rewrite (init_dynamic_wf lib es WD). cbn [bind].
  cbn [dv_of dv_symtab dv_versym dv_strtab dv_gnu_hash dv_elf_hash].
  fold (l_syms lib es) (l_versym lib es) (l_gnu lib es) (l_sysv lib es).
  change (fun off => im_str (lm_image lib) (dyn_get es DT_STRTAB 0 + off)) with (l_str lib es).
  assert (Hfin : forall i, sym_name (l_syms lib es) (l_str lib es) i = Some name ->
    match nth_error (l_syms lib es) (Z.to_nat i) with
    | Some s => if negb (check_visibility s) then Ok None else Ok (Some (u64 (st_value s + lm_addr lib)))
    | None => Fault OutOfBounds end = Ok (symbol_address lib es i)).
  { intros i Hi. unfold symbol_address. destruct (nth_error_lt_Some _ _ (wf_index_lt _ _ _ _ Hi)) as [s Hs]. rewrite Hs.
    unfold check_visibility. rewrite Z.gtb_ltb. destruct (0 <? st_size s); reflexivity. }
  assert (HG : has_gnu es ->
     lookup_gnu_hash_symbol name (l_syms lib es) (l_versym lib es) (l_str lib es) (l_gnu lib es) = Ok None).
  { intros Hg. destruct (WG Hg) as (nb & sx & b & v & W). eapply gnu_missing_thm; eauto. }
  assert (HS : has_sysv es -> exists r, sysv_result lib es name r /\
     lookup_elf_hash_symbol name (l_syms lib es) (l_versym lib es) (l_str lib es) (l_sysv lib es) = Ok r).
  { intros Hg. destruct (WS Hg) as (nb & b & c & W).
    destruct (sysv_lookup_thm name _ _ _ _ _ _ _ W WV HB) as (r & s & ch & H1 & H2 & H3 & H4).
    exists r. split; auto. exists nb, b, c, s, ch. auto. }
  unfold has_gnu, has_sysv in *.
  assert (HE : (if negb (dyn_get es DT_GNU_HASH 0 =? 0)
     then lookup_gnu_hash_symbol name (l_syms lib es) (l_versym lib es) (l_str lib es) (l_gnu lib es) else Ok None) = Ok None).
  { destruct (Z.eqb_spec (dyn_get es DT_GNU_HASH 0) 0); cbn [negb]; auto. }
  rewrite HE. cbn [bind]. rewrite andb_true_r.
  destruct (Z.eqb_spec (dyn_get es DT_HASH 0) 0) as [Es|Ns]; cbn [negb bind].
  - exists None. split; [right; auto|]. destruct (_ && _); reflexivity.
  - destruct (HS Ns) as (r & HR & HL). rewrite HL. cbn [bind]. exists r. split; [left; auto|]. rewrite andb_false_r.
    destruct r as [i|]; [|reflexivity]. apply Hfin. eapply lookup_sound_thm. right; exact HL.
Qed.

(** soundness of the whole lookup, no assumption on the tables *)
Lemma exported_sound_thm lib name a : lookup_exported_symbol false name lib = Ok (Some a) ->
  exists es i s, dyn_entries (im_dyn (lm_image lib)) = Some es /\ nth_error (l_syms lib es) (Z.to_nat i) = Some s /\
    sym_name (l_syms lib es) (l_str lib es) i = Some name /\ 0 < st_size s /\ a = (st_value s + lm_addr lib) mod 2 ^ 64.
Proof.
  unfold lookup_exported_symbol, init_dynamic. destruct (lm_ld lib =? 0); [discriminate|].
  change dv_init with (dv_of []). rewrite dyn_loop_spec.
  destruct (dyn_entries (im_dyn (lm_image lib))) as [es|]; [|discriminate]. cbn [app bind].
  destruct (negb (dv_rel (dv_of es) =? 0) && (dv_rel_esz (dv_of es) =? 0)); [discriminate|].
  destruct (negb (dv_rela (dv_of es) =? 0) && (dv_rela_esz (dv_of es) =? 0)); [discriminate|]. cbn [bind].
  cbn [dv_of dv_symtab dv_versym dv_strtab dv_gnu_hash dv_elf_hash].
  fold (l_syms lib es) (l_versym lib es) (l_gnu lib es) (l_sysv lib es).
  change (fun off => im_str (lm_image lib) (dyn_get es DT_STRTAB 0 + off)) with (l_str lib es).
  destruct (_ && _); [discriminate|].
  intros H. exists es.
  assert (Hfin : forall i, sym_name (l_syms lib es) (l_str lib es) i = Some name ->
    match nth_error (l_syms lib es) (Z.to_nat i) with
    | Some s => if negb (check_visibility s) then Ok None else Ok (Some (u64 (st_value s + lm_addr lib)))
    | None => Fault OutOfBounds end = Ok (Some a) ->
    exists i s, Some es = Some es /\ nth_error (l_syms lib es) (Z.to_nat i) = Some s /\
    sym_name (l_syms lib es) (l_str lib es) i = Some name /\ 0 < st_size s /\ a = (st_value s + lm_addr lib) mod 2 ^ 64).
  { intros i Hi Hr. exists i. destruct (nth_error _ _) as [s|]; [|discriminate]. exists s.
    unfold check_visibility in Hr. rewrite Z.gtb_ltb in Hr. destruct (Z.ltb_spec 0 (st_size s)); [|discriminate].
    injection Hr as <-. repeat split; auto. }
  assert (HN : forall r1 : outcome (option Z), (forall i, r1 = Ok (Some i) -> sym_name (l_syms lib es) (l_str lib es) i = Some name) ->
     (do result <- r1;
      do result0 <- (if negb (dyn_get es DT_HASH 0 =? 0) && match result with Some _ => false | None => true end
          then lookup_elf_hash_symbol name (l_syms lib es) (l_versym lib es) (l_str lib es) (l_sysv lib es) else Ok result);
      match result0 with
      | Some i => match nth_error (l_syms lib es) (Z.to_nat i) with
        | Some s => if negb (check_visibility s) then Ok None else Ok (Some (u64 (st_value s + lm_addr lib)))
        | None => Fault OutOfBounds end
      | None => Ok None end) = Ok (Some a) ->
     exists i s, Some es = Some es /\ nth_error (l_syms lib es) (Z.to_nat i) = Some s /\
       sym_name (l_syms lib es) (l_str lib es) i = Some name /\ 0 < st_size s /\ a = (st_value s + lm_addr lib) mod 2 ^ 64).
  { intros r1 Hr1 HH. destruct r1 as [[i|]|]; cbn [bind] in HH; [| |discriminate].
    - rewrite andb_false_r in HH. cbn [bind] in HH. apply (Hfin i); auto.
    - rewrite andb_true_r in HH. destruct (negb (dyn_get es DT_HASH 0 =? 0)); cbn [bind] in HH; [|discriminate].
      destruct (lookup_elf_hash_symbol _ _ _ _ _) as [[i|]|] eqn:HL; cbn [bind] in HH; try discriminate.
      apply (Hfin i); auto. eapply lookup_sound_thm. right; exact HL. }
  destruct (negb (dyn_get es DT_GNU_HASH 0 =? 0)) in H.
  - apply (HN (lookup_gnu_hash_symbol name (l_syms lib es) (l_versym lib es) (l_str lib es) (l_gnu lib es))); auto.
    intros i Hi. eapply lookup_sound_thm. left; exact Hi.
  - apply (HN (Ok None)); [discriminate|exact H].
Qed.

Lemma symbol_result_found lib es name i : covered lib es i -> versioned lib es i ->
  sym_name (l_syms lib es) (l_str lib es) i = Some name -> ~ symbol_result lib es name None.
Proof.
  intros HC HV Hn [(_ & H & _)|[HG HS]]; [congruence|]. destruct HC as [[Hg Hi]|[Hs Hi]].
  - destruct HG as [HG|(nb & sx & b & v & s & ch & W & Hs & Hch & Hsel)]; [contradiction|].
    destruct (wg_words _ _ _ _ _ _ _ W) as (mw & sh & bloom & Hw & _). rewrite Hw in Hi.
    destruct (wg_cover _ _ _ _ _ _ _ W i name Hi Hn) as [_ (s' & ch' & Hs' & Hc' & Hin)].
    rewrite Hs in Hs'. injection Hs' as <-.
    assert (ch = ch').
    { destruct Hch as [[-> ->]|Hch]; [|eapply gnu_chain_fun; eauto].
      destruct (gnu_chain_hd _ _ _ _ Hc') as (r' & ->). destruct (gnu_chain_range _ _ _ _ Hc' 0) as [? _]; [left; auto|].
      pose proof (proj1 (wg_ndx _ _ _ _ _ _ _ W)). lia. }
    subst ch'. destruct (selects_some _ _ _ i Hsel) as (j & HH & _); [|exact HV|discriminate].
    apply filter_In. split; auto. apply name_is_spec; auto.
  - destruct HS as [[_ (nb & b & c & s & ch & W & Hs' & Hch & Hsel)]|[HS _]]; [|contradiction].
    destruct (ws_cover _ _ _ _ _ _ W i name Hi Hn) as (s' & ch' & Hs2 & Hc' & Hin).
    rewrite Hs' in Hs2. injection Hs2 as <-.
    assert (ch = ch') by (eapply sysv_chain_fun; eauto). subst ch'.
    destruct (selects_some _ _ _ i Hsel) as (j & HH & _); [|exact HV|discriminate].
    apply filter_In. split; auto. apply name_is_spec; auto.
Qed.

Lemma symbol_result_name lib es name i : symbol_result lib es name (Some i) -> sym_name (l_syms lib es) (l_str lib es) i = Some name.
Proof.
  intros [(_ & _ & (nb & sx & b & v & s & ch & W & Hs & Hch & Hsel))|[_ [[_ (nb & b & c & s & ch & W & Hs & Hch & Hsel)]|[_ H]]]]; [| |discriminate];
    apply selects_in in Hsel; apply filter_In in Hsel as [_ Hsel]; apply name_is_spec; auto.
Qed.

(** every covered function is found, at the address a direct call reaches *)
Lemma wrappee_thm lib es name resolver i : wf_lookup lib es -> plain name ->
  covered lib es i -> versioned lib es i -> sym_name (l_syms lib es) (l_str lib es) i = Some name ->
  (forall j s, sym_name (l_syms lib es) (l_str lib es) j = Some name -> nth_error (l_syms lib es) (Z.to_nat j) = Some s ->
     0 < st_size s /\ st_type s <> STT_GNU_IFUNC) ->
  exists j s, symbol_result lib es name (Some j) /\ nth_error (l_syms lib es) (Z.to_nat j) = Some s /\
    lookup_exported_symbol false name lib = Ok (Some (call_target lib resolver s)).
Proof.
  intros W HA HC HV Hn Hok. destruct (exported_thm lib es name W HA) as (r & HR & HL).
  destruct r as [j|]; [|contradiction (symbol_result_found _ _ _ _ HC HV Hn HR)].
  pose proof (symbol_result_name _ _ _ _ HR) as Hj.
  destruct (nth_error_lt_Some _ _ (wf_index_lt _ _ _ _ Hj)) as [s Hs]. exists j, s. split; [auto|]. split; [auto|].
  rewrite HL. destruct (Hok j s Hj Hs) as [Hsz Hty]. unfold symbol_address, call_target. rewrite Hs.
  destruct (Z.ltb_spec 0 (st_size s)); [|lia]. destruct (Z.eqb_spec (st_type s) STT_GNU_IFUNC); [contradiction|reflexivity].
Qed.

(** whatever symbol is selected decides *)
Lemma selected_thm lib es name : wf_lookup lib es -> plain name ->
  exists r, symbol_result lib es name r /\
    match r with
    | None => lookup_exported_symbol false name lib = Ok None
    | Some j => exists s, nth_error (l_syms lib es) (Z.to_nat j) = Some s /\
        (st_size s <= 0 -> lookup_exported_symbol false name lib = Ok None) /\
        (0 < st_size s -> lookup_exported_symbol false name lib = Ok (Some ((st_value s + lm_addr lib) mod 2 ^ 64)) /\
           forall resolver, st_type s <> STT_GNU_IFUNC \/ resolver ((st_value s + lm_addr lib) mod 2 ^ 64) = (st_value s + lm_addr lib) mod 2 ^ 64 <->
             lookup_exported_symbol false name lib = Ok (Some (call_target lib resolver s)))
    end.
Proof.
  intros W HA. destruct (exported_thm lib es name W HA) as (r & HR & HL). exists r. split; [exact HR|].
  destruct r as [j|]; [|exact HL].
  pose proof (symbol_result_name _ _ _ _ HR) as Hj.
  destruct (nth_error_lt_Some _ _ (wf_index_lt _ _ _ _ Hj)) as [s Hs]. exists s. split; [exact Hs|].
  rewrite HL. unfold symbol_address, call_target. rewrite Hs.
  split.
  - intros Hz. destruct (Z.ltb_spec 0 (st_size s)); [lia|reflexivity].
  - intros Hz. destruct (Z.ltb_spec 0 (st_size s)); [|lia]. split; [reflexivity|]. intros rs.
    destruct (Z.eqb_spec (st_type s) STT_GNU_IFUNC) as [E|E].
    + split; [intros [H'| ->]; [contradiction|reflexivity]|]. intros H'. injection H' as H'. right. auto.
    + split; auto.
Qed.
