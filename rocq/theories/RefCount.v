(** dlsym_wrapper with a dynamic linker that has a state of its own, such as reference counts. *)
From Verif Require Import Base ListFacts SpecHash HashTrace HashModel HashProofs ElfModel SpecElf ElfProofs ToolModel CoreModel SpecCore SpecRun
  ToolProofs CoreMaps CoreRel CoreLib CoreStep CoreWrap CoreLoop CoreMain CoreEnv CoreSpec CoreFacts CoreHist CoreApi CoreApi2 CoreDl.

(** the original dlsym and dlopen, reached through the wrappees of GOTCHA's handles.  Simplification: the flags of dlopen are
    left out; dlsym_wrapper always passes RTLD_NOW. *)
Record loader (L : Type) := mkLd { ld_dlsym : L -> Z -> cstr -> L * Z; ld_dlopen : L -> option cstr -> L * Z }.
Arguments mkLd {L}. Arguments ld_dlsym {L}. Arguments ld_dlopen {L}.

(** dlsym_wrapper, src/gotcha_dl.c:154-185, as in CoreModel, with the linker's state *)
Definition dlsym_in {L} (e : env) (ld : loader L) (caller : Z) (st : state) (l : L) (handle : Z) (name : cstr) : outcome (dlres * L) :=
  do _ <- gotcha_get_wrappee st (e_h_dlopen e);
  do _ <- gotcha_get_wrappee st (e_h_dlsym e);
  do result <- lookup_hashtable (b_fn (s_b st)) name;
  let (l, val) := ld_dlsym ld l handle name in
  let unwrapped :=
    if handle =? RTLD_NEXT then
      do c <- find_caller (e_phdrs e (p_maps (s_p st))) (p_maps (s_p st)) caller;
      match c with
      | None => Ok (DExit, l)
      | Some [] => Fault NullDeref
      | Some (_ :: after) =>
        do lib <- next_export e after name;
        match lib with
        | Some lib =>
          let (l, h) := ld_dlopen ld l (lm_name lib) in
          let (l, s) := ld_dlsym ld l h name in
          Ok (DReturn s, l)
        | None => Ok (DReturn 0, l)
        end
      end
    else Ok (DReturn val, l) in
  match result with
  | None => unwrapped
  | Some b =>
    do ib <- deref (b_ib (s_b st)) b;
    match b_handles (s_b st) (ub_handle (ib_user ib)) with
    | None => Fault NullDeref
    | Some i =>
      do hb <- deref (b_ib (s_b st)) i;
      if (val =? 0) || (wptr_value e i (ib_wrappee hb) =? val) then Ok (DReturn (ub_wrapper (ib_user ib)), l)
      else unwrapped
    end
  end.

(** the calls one after the other, from the same place *)
Fixpoint dlsyms_in {L} (e : env) (ld : loader L) (caller : Z) (st : state) (l : L) (handle : Z) (names : list cstr) : outcome L :=
  match names with
  | [] => Ok l
  | n :: r => do ' (_, l) <- dlsym_in e ld caller st l handle n; dlsyms_in e ld caller st l handle r
  end.

Definition same_name (a b : option cstr) : bool := match a, b with Some a, Some b => cstr_eqb a b | _, _ => false end.
(** glibc's reference counts: dlopen of a loaded library (by its name in the link map list, dlopen(3)) adds one to its count,
    dlsym changes none.  [answer] is what dlsym returns. *)
Definition counting (maps : list lmap) (answer : Z -> cstr -> Z) : loader (Z -> Z) :=
  mkLd (fun l h n => (l, answer h n))
       (fun l name => match find (fun m => same_name (lm_name m) name) maps with
                      | Some m => (fun p => if p =? lm_ptr m then l p + 1 else l p, lm_ptr m)
                      | None => (l, 0)
                      end).

Lemma same_answers {L} e (ld : loader L) caller st l handle name s o :
  (forall l h n, snd (ld_dlsym ld l h n) = s h n) -> (forall l n, snd (ld_dlopen ld l n) = o n) ->
  (do ' (r, _) <- dlsym_in e ld caller st l handle name; Ok r) = dlsym_wrapper e (mkDW s o caller) st handle name.
Proof.
  intros Hs Ho. unfold dlsym_in, dlsym_wrapper. cbn [dw_dlsym dw_dlopen dw_caller].
  destruct (gotcha_get_wrappee st (e_h_dlopen e)); cbn [bind]; [|reflexivity]. destruct (gotcha_get_wrappee st (e_h_dlsym e)); cbn [bind]; [|reflexivity].
  destruct (lookup_hashtable (b_fn (s_b st)) name) as [res|]; cbn [bind]; [|reflexivity].
  pose proof (Hs l handle name) as H1. destruct (ld_dlsym ld l handle name) as [l1 v]. cbn in H1. subst v.
  match goal with |- bind (match res with None => ?u | _ => _ end) _ = match res with None => ?u' | _ => _ end => assert (HU : (do ' (r, _) <- u; Ok r) = u') end.
  { destruct (handle =? RTLD_NEXT); [|reflexivity]. destruct (find_caller _ _ caller) as [[[|m after]|]|]; cbn [bind]; try reflexivity.
    destruct (next_export e after name) as [[lib|]|]; cbn [bind]; try reflexivity. pose proof (Ho l1 (lm_name lib)) as H2. destruct (ld_dlopen ld l1 (lm_name lib)) as [l2 h]. cbn in H2. subst h.
    pose proof (Hs l2 (o (lm_name lib)) name) as H3. destruct (ld_dlsym ld l2 (o (lm_name lib)) name) as [l3 v]. cbn in H3. subst v. reflexivity. }
  destruct res as [b|]; [|exact HU]. destruct (deref (b_ib (s_b st)) b) as [ib|]; cbn [bind]; [|reflexivity].
  destruct (b_handles (s_b st) (ub_handle (ib_user ib))) as [i|]; [|reflexivity]. destruct (deref (b_ib (s_b st)) i) as [hb|]; cbn [bind]; [|reflexivity].
  destruct (_ || _); [reflexivity|exact HU].
Qed.

Lemma other_handle {L} e (ld : loader L) caller st l handle name r l' : handle <> RTLD_NEXT -> dlsym_in e ld caller st l handle name = Ok (r, l') -> l' = fst (ld_dlsym ld l handle name).
Proof.
  intros N. unfold dlsym_in. destruct (Z.eqb_spec handle RTLD_NEXT); [contradiction|].
  destruct (gotcha_get_wrappee st (e_h_dlopen e)); cbn [bind]; [|discriminate]. destruct (gotcha_get_wrappee st (e_h_dlsym e)); cbn [bind]; [|discriminate].
  destruct (lookup_hashtable (b_fn (s_b st)) name) as [res|]; cbn [bind]; [|discriminate].
  destruct (ld_dlsym ld l handle name) as [l1 v]. cbn [fst]. destruct res as [b|]; [|congruence].
  destruct (deref (b_ib (s_b st)) b) as [ib|]; cbn [bind]; [|discriminate].
  destruct (b_handles (s_b st) (ub_handle (ib_user ib))) as [i|]; [|discriminate]. destruct (deref (b_ib (s_b st)) i) as [hb|]; cbn [bind]; [|discriminate].
  destruct (_ || _); congruence.
Qed.

Lemma next_calls {L} e maps mem ops st rs (ld : loader L) w l n m after lib : process_ok e maps ops -> fresh e ops -> existsb is_api ops = true -> run e (init_state maps mem) ops = Ok (st, rs) ->
  ~ wrapped e ops n -> caller_in e st w m after -> find (fun x => match exports e x n with Some _ => true | None => false end) after = Some lib ->
  dlsym_in e ld (dw_caller w) st l RTLD_NEXT n =
    (let l1 := fst (ld_dlsym ld l RTLD_NEXT n) in
     let (l2, h) := ld_dlopen ld l1 (lm_name lib) in
     let (l3, s) := ld_dlsym ld l2 h n in
     Ok (DReturn s, l3)).
Proof.
  intros P F A E NW C Hl. destruct (dl_handles e maps mem ops st rs P F A E) as (R & Hi & (w1 & H1) & (w2 & H2)).
  unfold dlsym_in. rewrite H1, H2. cbn [bind]. pose proof (fn_lookup e True st _ n R Hi) as K. fold (stack e maps ops n) in K.
  assert (Es : stack e maps ops n = []) by (apply (stack_empty e (exports e) place place_ne maps ops n); exact NW). rewrite Es in K. rewrite K. cbn [bind].
  destruct (ld_dlsym ld l RTLD_NEXT n) as [l1 v]. cbn [fst]. rewrite Z.eqb_refl.
  destruct (rel_lib _ _ _ _ _ _ R) as [RL RM]. rewrite <- RM in RL.
  rewrite (find_caller_spec e st w m after); [|intros x Hx; apply (lo_name _ _ _ _ (RL x Hx))|auto]. cbn [bind].
  rewrite next_export_spec.
  - cbn [bind]. rewrite Hl. reflexivity.
  - intros x Hx. apply RL. destruct C as (i1 & j & i2 & pre & _ & _ & _ & _ & EM & _). rewrite EM. apply in_or_app. right. right. auto.
Qed.

Lemma pinned e maps mem ops st rs w answer m after lib pre rest : process_ok e maps ops -> fresh e ops -> existsb is_api ops = true -> run e (init_state maps mem) ops = Ok (st, rs) ->
  caller_in e st w m after -> p_maps (s_p st) = pre ++ lib :: rest -> (forall x, In x pre -> lm_name x <> lm_name lib) ->
  forall names l, (forall n, In n names -> ~ wrapped e ops n /\ find (fun x => match exports e x n with Some _ => true | None => false end) after = Some lib) ->
  exists l', dlsyms_in e (counting (p_maps (s_p st)) answer) (dw_caller w) st l RTLD_NEXT names = Ok l' /\
    l' (lm_ptr lib) = l (lm_ptr lib) + Z.of_nat (length names) /\ forall p, p <> lm_ptr lib -> l' p = l p.
Proof.
  intros P F A E C EM HN. assert (Hlib : lm_name lib <> None).
  { destruct (dl_handles e maps mem ops st rs P F A E) as (R & _). destruct (rel_lib _ _ _ _ _ _ R) as [RL RM]. rewrite <- RM in RL. apply (lo_name _ _ _ _ (RL lib ltac:(rewrite EM; apply in_elt))). }
  assert (HF : find (fun x => same_name (lm_name x) (lm_name lib)) (p_maps (s_p st)) = Some lib).
  { rewrite EM. clear EM. induction pre as [|x pre IH]; cbn [app find].
    - destruct (lm_name lib) as [a|]; [|contradiction]. cbn [same_name]. replace (cstr_eqb a a) with true; [reflexivity|]. symmetry. apply cstr_eqb_ok. reflexivity.
    - replace (same_name (lm_name x) (lm_name lib)) with false; [apply IH; intros y Hy; apply HN; right; exact Hy|].
      symmetry. pose proof (HN x (or_introl eq_refl)) as Hx. destruct (lm_name x) as [a|], (lm_name lib) as [b|]; try reflexivity. cbn [same_name]. destruct (cstr_eqb a b) eqn:Eab; [apply cstr_eqb_ok in Eab; subst; contradiction|reflexivity]. }
  induction names as [|n names IH]; intros l H; cbn [dlsyms_in length].
  - exists l. split; [reflexivity|]. split; [cbn; lia|auto].
  - destruct (H n (or_introl eq_refl)) as [NW Hl].
    rewrite (next_calls e maps mem ops st rs (counting (p_maps (s_p st)) answer) w l n m after lib P F A E NW C Hl). cbn [counting ld_dlsym ld_dlopen fst]. rewrite HF. cbn [bind].
    destruct (IH (fun p => if p =? lm_ptr lib then l p + 1 else l p)) as (l' & El & B1 & B2); [intros x Hx; apply H; right; exact Hx|].
    exists l'. split; [exact El|]. cbn beta in B1. rewrite Z.eqb_refl in B1. split; [lia|]. intros p Np. rewrite (B2 p Np). destruct (Z.eqb_spec p (lm_ptr lib)); [contradiction|reflexivity].
Qed.
