(** Proofs about the messages. *)
From Verif Require Import Base ListFacts LibcModel SpecLibc LibcProofs LibcProofs2 LibcProofs3 LibcProofs4 MsgModel SpecMsg.

(** *** every format with arguments of the right types has an expansion *)
Lemma div_denotes_u w a : exists v, denotes_unsigned w a v.
Proof.
  exists (a mod 2 ^ width_bits w). assert (0 < 2 ^ width_bits w) by (apply Z.pow_pos_nonneg; [lia|destruct w; cbn; lia]). split; [apply Z.mod_pos_bound; lia|].
  exists (a / 2 ^ width_bits w). pose proof (Z.div_mod a (2 ^ width_bits w)). lia.
Qed.
Lemma div_denotes_s a : exists v, denotes_signed WNone a v.
Proof.
  exists ((a + 2 ^ 31) mod 2 ^ 32 - 2 ^ 31). unfold denotes_signed. cbn [width_bits]. change (2 ^ (32 - 1)) with (2 ^ 31). pose proof (Z.mod_pos_bound (a + 2 ^ 31) (2 ^ 32)). split; [lia|].
  exists ((a + 2 ^ 31) / 2 ^ 32). pose proof (Z.div_mod (a + 2 ^ 31) (2 ^ 32)). lia.
Qed.

Lemma format_kinds_expands m : forall f ks, format_kinds f ks -> forall args, Forall2 (given m) ks args -> exists out, expands m f args out.
Proof.
  induction 1 as [|c f ks N _ IH|f ks _ IH|f ks _ IH|f ks _ IH|f ks _ IH|f ks _ IH|f ks _ IH|f ks _ IH|f ks _ IH]; intros args H.
  - inversion H. exists []. constructor.
  - destruct (IH args H) as [out E]. exists (c :: out). constructor; auto.
  - destruct (IH args H) as [out E]. exists (37 :: out). apply ExPercent; auto.
  - inversion H as [|? a ? args' G H']; subst. destruct (IH args' H') as [out E]. destruct (div_denotes_s a) as [v D]. pose proof (proj1 D) as R. cbn [width_bits] in R.
    change (2 ^ (32 - 1)) with 2147483648 in R. destruct (decimal_exists v) as [s S]; [unfold two64; lia|]. exists (s ++ out). apply (ExSigned m WNone 100 a v s); [left; reflexivity|exact D| |exact S|exact E]. change (2 ^ 63) with 9223372036854775808. lia.
  - inversion H as [|? a ? args' G H']; subst. destruct (IH args' H') as [out E]. destruct (div_denotes_u WNone a) as [v D]. pose proof (unsigned_range _ _ _ D) as R.
    destruct (decimal_exists v) as [s S]; [unfold two64 in *; lia|]. exists (s ++ out). apply (ExUnsigned m WNone a v s); auto.
  - inversion H as [|? a ? args' G H']; subst. destruct (IH args' H') as [out E]. destruct (div_denotes_u WNone a) as [v D]. pose proof (unsigned_range _ _ _ D) as R.
    destruct (hexadecimal_exists false v R) as [s S]. exists (s ++ out). apply (ExHex m WNone 120 a v s); auto.
  - inversion H as [|? a ? args' G H']; subst. destruct (IH args' H') as [out E]. destruct (div_denotes_u WLong a) as [v D]. pose proof (unsigned_range _ _ _ D) as R.
    destruct (decimal_exists v) as [s S]; [unfold two64 in *; lia|]. exists (s ++ out). apply (ExUnsigned m WLong a v s); auto.
  - inversion H as [|? a ? args' G H']; subst. destruct (IH args' H') as [out E]. destruct (div_denotes_u WLong a) as [v D]. pose proof (unsigned_range _ _ _ D) as R.
    destruct (hexadecimal_exists false v R) as [s S]. exists (s ++ out). apply (ExHex m WLong 120 a v s); auto.
  - inversion H as [|? a ? args' G H']; subst. destruct (IH args' H') as [out E]. cbn [given] in G.
    destruct (hexadecimal_exists false a) as [s S]; [unfold two64; lia|]. exists (48 :: 120 :: s ++ out). apply (ExPointer m a s); auto.
  - inversion H as [|? a ? args' G H']; subst. destruct (IH args' H') as [out E]. destruct G as [s G]. exists (s ++ out). apply (ExString m a s); auto.
Qed.

(** deciding [format_kinds] *)
Fixpoint kinds_of (f : cstr) : option (list kind) :=
  match f with
  | [] => Some []
  | c :: f' =>
    if c =? 37 then
      match f' with
      | d :: g =>
        if d =? 37 then kinds_of g
        else if d =? 100 then option_map (cons KInt) (kinds_of g)
        else if d =? 117 then option_map (cons KUInt) (kinds_of g)
        else if d =? 120 then option_map (cons KUInt) (kinds_of g)
        else if d =? 112 then option_map (cons KPtr) (kinds_of g)
        else if d =? 115 then option_map (cons KStr) (kinds_of g)
        else if d =? 108 then
          match g with
          | x :: h => if (x =? 117) || (x =? 120) then option_map (cons KULong) (kinds_of h) else None
          | [] => None
          end
        else None
      | [] => None
      end
    else kinds_of f'
  end.
Ltac fk := first [apply FkPercent|apply FkD|apply FkU|apply FkX|apply FkLU|apply FkLX|apply FkP|apply FkS].
Lemma kinds_of_ok : forall n f ks, (length f <= n)%nat -> kinds_of f = Some ks -> format_kinds f ks.
Proof.
  induction n as [|n IH]; intros f ks L E.
  - destruct f; [|cbn in L; lia]. injection E as <-. constructor.
  - destruct f as [|c f']; cbn [kinds_of] in E; [injection E as <-; constructor|]. cbn [length] in L. destruct (Z.eqb_spec c 37) as [->|N]; [|apply FkChar; [exact N|apply IH; [lia|exact E]]].
    destruct f' as [|d g]; [discriminate E|]. cbn [length] in L.
    repeat match type of E with (if Z.eqb ?x ?y then _ else _) = _ => destruct (Z.eqb_spec x y) as [->|] end; try discriminate E;
      try (destruct (kinds_of g) as [k|] eqn:K; [|discriminate E]; injection E as <-; fk; apply IH; [lia|exact K]); try (fk; apply IH; [lia|exact E]).
    destruct g as [|x h]; [discriminate E|]. cbn [length] in L. destruct ((x =? 117) || (x =? 120)) eqn:X; [|discriminate E].
    destruct (kinds_of h) as [k|] eqn:K; [|discriminate E]. injection E as <-. apply orb_true_iff in X. destruct X as [X|X]; apply Z.eqb_eq in X; subst x; fk; (apply IH; [lia|exact K]).
Qed.
Definition prefix_kinds (g : gate) : list kind := match g with Bare _ => [] | _ => [KInt; KInt; KStr; KUInt] end.
Lemma messages_kinds : forall g, In g messages -> format_kinds (full_fmt g) (prefix_kinds (g_gate g) ++ g_args g).
Proof.
  assert (H : forallb (fun g => match kinds_of (full_fmt g) with
      | Some ks => if list_eq_dec kind_eq_dec ks (prefix_kinds (g_gate g) ++ g_args g) then true else false | None => false end) messages = true) by (vm_compute; reflexivity).
  rewrite forallb_forall in H. intros g Hg. specialize (H g Hg). destruct (kinds_of (full_fmt g)) as [ks|] eqn:K; [|discriminate H].
  destruct (list_eq_dec kind_eq_dec ks (prefix_kinds (g_gate g) ++ g_args g)) as [->|]; [|discriminate H]. eapply kinds_of_ok; [apply le_n|exact K].
Qed.

Lemma prefix_given m g tid pid file line : str_at m file (g_file g) -> Forall2 (given m) (prefix_kinds (g_gate g)) (prefix_args (g_gate g) tid pid file line).
Proof. intros H. destruct (g_gate g); cbn; repeat constructor; exists (g_file g); exact H. Qed.

(** *** a string that cannot be read *)
Definition takes (c : Z) : Prop := In c [100; 105; 117; 120; 88; 112; 99; 115].
Inductive hits (m : bytes) : cstr -> list Z -> Prop :=
| HitHere a f args : (forall b, ld m a <> Ok b) -> hits m (37 :: 115 :: f) (a :: args)
| HitChar c f args : c <> 37 -> hits m f args -> hits m (c :: f) args
| HitPercent f args : hits m f args -> hits m (37 :: 37 :: f) args
| HitArg w c a f args : modifier w c -> takes c -> hits m f args -> hits m (37 :: width_chars w ++ c :: f) (a :: args).

Lemma add_loop_str m : forall l f str p str' p', wf_cstr l -> ~ In 37 l -> bytes_at m str (l ++ [37]) -> add_loop f m str false p = Ok (str', p') -> str' = str + zlen l.
Proof.
  induction l as [|c l IH]; intros [|f] str p str' p' W N H E; try discriminate E; cbn [app bytes_at] in H; destruct H as [H0 H]; cbn [add_loop] in E; rewrite (holds_ld _ _ _ H0) in E; cbn [bind] in E.
  - cbn in E. injection E as <- _. cbn. lia.
  - inversion W as [|? ? W0 W1]; subst. destruct (Z.eqb_spec c 0); [lia|]. destruct (Z.eqb_spec c 37) as [->|]; [destruct N; left; reflexivity|]. cbn [negb andb orb] in E.
    match type of E with bind ?x _ = _ => destruct x as [p1|]; [|discriminate E] end. cbn [bind] in E.
    rewrite (IH f (str + 1) _ _ _ W1 ltac:(intros X; apply N; right; exact X) H E). cbn [length]. lia.
Qed.

Lemma bind_Ok {A B} (x : outcome A) (k : A -> outcome B) b : bind x k = Ok b -> exists a, x = Ok a /\ k a = Ok b.
Proof. destruct x as [a|]; [|discriminate]. eauto. Qed.
Lemma convert_takes m c w args p args' p' : takes c -> convert m c w args p = Ok (args', p') -> exists a, args = a :: args' /\ (c = 115 -> exists b, ld m a = Ok b).
Proof.
  intros T E. assert (S : forall k, (do ' (a, args) <- va_slot args; k a args) = Ok (args', p') -> exists a r, args = a :: r /\ k a r = Ok (args', p')).
  { intros k H. destruct args as [|a r]; [discriminate H|]. exists a, r. auto. }
  destruct T as [<-|[<-|[<-|[<-|[<-|[<-|[<-|[<-|[]]]]]]]]]; unfold convert in E; cbn [Z.eqb Pos.eqb orb negb] in E; apply S in E; destruct E as (a & r & -> & E); exists a.
  8: { apply bind_Ok in E. destruct E as ([x y] & E1 & E). injection E as <- _. split; [reflexivity|]. intros _. unfold add_to_buffer in E1. cbn [add_loop] in E1. apply bind_Ok in E1. destruct E1 as (b & E1 & _). eauto. }
  all: split; [|discriminate]; f_equal; repeat (apply bind_Ok in E; destruct E as (? & _ & E)); try (destruct x as [? ?]); injection E as <- _; reflexivity.
Qed.

Lemma hits_lit m fmt args : hits m fmt args -> exists l g, fmt = l ++ 37 :: g /\ ~ In 37 l /\ hits m (37 :: g) args.
Proof.
  induction 1 as [a f args H|c f args N H IH|f args H IH|w c a f args M T H IH].
  - exists [], (115 :: f). split; [reflexivity|]. split; [intros []|]. apply HitHere. exact H.
  - destruct IH as (l & g & -> & NI & G). exists (c :: l), g. split; [reflexivity|]. split; [intros [X|X]; auto|exact G].
  - exists [], (37 :: f). split; [reflexivity|]. split; [intros []|]. apply HitPercent. exact H.
  - exists [], (width_chars w ++ c :: f). split; [reflexivity|]. split; [intros []|]. apply HitArg; auto.
Qed.
Lemma hits_ne m fmt args : hits m fmt args -> fmt <> [].
Proof. destruct 1; discriminate. Qed.

Lemma hits_fault m : forall f fmt str args p, wf_cstr fmt -> bytes_at m str (fmt ++ [0]) -> hits m fmt args -> forall r, printf_loop f m str args p <> Ok r.
Proof.
  induction f as [|f IH]; intros fmt str args p W H X r E; [discriminate E|]. rewrite printf_loop_eq in E.
  apply bind_Ok in E. destruct E as (c0 & E0 & E). destruct (hits_lit _ _ _ X) as (l & g & -> & NI & G).
  assert (c0 <> 0). { destruct l as [|x l]; cbn [app bytes_at] in H; rewrite (holds_ld _ _ _ (proj1 H)) in E0; injection E0 as <-; [lia|]. inversion W; lia. }
  destruct (Z.eqb_spec c0 0); [contradiction|]. apply bind_Ok in E. destruct E as ([str' p1] & E1 & E).
  apply wf_app in W as [Wl Wf]. rewrite <- app_assoc in H. cbn [app] in H. pose proof H as H'. apply bytes_at_app in H as [Hl Hr].
  apply add_loop_str with (l := l) in E1; auto.
  2: { change (37 :: g ++ [0]) with ([37] ++ g ++ [0]) in H'. rewrite app_assoc in H'. apply bytes_at_app in H'. apply H'. }
  subst str'. cbn [bytes_at] in Hr. rewrite (holds_ld _ _ _ (proj1 Hr)) in E. cbn [bind Z.eqb Pos.eqb negb] in E.
  assert (C : forall w c h, modifier w c -> 37 :: g = 37 :: width_chars w ++ c :: h -> exists args' p2, convert m c w args p1 = Ok (args', p2) /\ forall args2, args' = args2 -> hits m h args2 -> False).
  { intros w c h M Eg. injection Eg as ->. assert (Hb : bytes_at m (str + zlen l) (37 :: width_chars w ++ c :: h ++ [0])).
    { cbn [bytes_at]. rewrite <- app_assoc in Hr. exact Hr. }
    inversion Wf as [|? ? _ W2]; subst. apply wf_app in W2 as [_ W2]. inversion W2 as [|? ? Wc Wh]; subst.
    rewrite (after_percent_ok f m _ args p1 w c _ Hb ltac:(lia) M) in E. unfold conv_at in E. apply bind_Ok in E. destruct E as ([args' p2] & Ec & E). exists args', p2. split; [exact Ec|].
    intros args2 <- Hh. change (37 :: width_chars w ++ c :: h ++ [0]) with ((37 :: width_chars w) ++ [c] ++ h ++ [0]) in Hb.
    apply bytes_at_app in Hb as [_ Hb]. cbn [app bytes_at] in Hb. destruct Hb as [_ Hb].
    destruct h as [|x h]; [apply hits_ne in Hh; contradiction|]. cbn [app bytes_at] in Hb.
    erewrite inc_go in E; [|replace (str + zlen l + 1 + zlen (width_chars w) + 1) with (str + zlen l + zlen (37 :: width_chars w) + 1) by (cbn [length]; lia); exact (proj1 Hb)|inversion Wh; lia].
    eapply IH; [| |exact Hh|exact E]; [exact Wh|].
    replace (str + zlen l + 1 + zlen (width_chars w) + 1) with (str + zlen l + zlen (37 :: width_chars w) + 1) by (cbn [length]; lia). exact Hb. }
  inversion G as [a h args' Ha|? ? ? N _|h args' Hh|w c a h args' M T Hh]; subst.
  - destruct (C WNone 115 h) as (args2 & p2 & Ec & _); [cbn; lia|reflexivity|]. apply convert_takes in Ec; [|unfold takes; cbn; tauto]. destruct Ec as (b & Eb & Hb). injection Eb as <- _.
    destruct (Hb eq_refl) as [v Hv]. eapply Ha. exact Hv.
  - congruence.
  - destruct (C WNone 37 h) as (args2 & p2 & Ec & K); [cbn; lia|reflexivity|]. unfold convert in Ec. cbn [Z.eqb Pos.eqb orb] in Ec. apply bind_Ok in Ec. destruct Ec as (p3 & _ & Ec). injection Ec as <- _. eapply K; [reflexivity|exact Hh].
  - destruct (C w c h M) as (args2 & p2 & Ec & K); [reflexivity|]. apply convert_takes in Ec; [|exact T]. destruct Ec as (b & Eb & _). injection Eb as <- <-. eapply K; [reflexivity|exact Hh].
Qed.

Lemma kinds_hit m : forall f ks, format_kinds f ks -> forall k1 k2 a1 a2 a, ks = k1 ++ KStr :: k2 -> length a1 = length k1 -> (forall b, ld m a <> Ok b) -> hits m f (a1 ++ a :: a2).
Proof.
  induction 1 as [|c f ks N _ IH|f ks _ IH|f ks _ IH|f ks _ IH|f ks _ IH|f ks _ IH|f ks _ IH|f ks _ IH|f ks _ IH]; intros k1 k2 a1 a2 a E L H.
  1: destruct k1; discriminate E.
  1: apply HitChar; [exact N|eapply IH; eauto].
  1: apply HitPercent; eapply IH; eauto.
  all: destruct k1 as [|k k1]; cbn [app] in E; [try discriminate E|injection E as <- ->; destruct a1 as [|x a1]; [discriminate L|]; injection L as L; cbn [app]].
  all: try (match goal with |- hits _ (37 :: 108 :: ?c :: ?g) _ => apply (HitArg m WLong c) | |- hits _ (37 :: ?c :: ?g) _ => apply (HitArg m WNone c) end; [cbn; lia|unfold takes; cbn; tauto|eapply IH; eauto]).
  destruct a1; [|discriminate L]. cbn [app]. apply HitHere. exact H.
Qed.

Lemma enabled_heard level g : enabled level g = true <-> heard level g.
Proof. destruct g as [n|n|]; cbn; [rewrite Z.geb_leb; lia|rewrite Z.geb_leb; lia|]. destruct (Z.eqb_spec level 0); cbn; intuition congruence. Qed.

Lemma whole_full g : whole_format g = full_fmt g.
Proof. unfold whole_format, full_fmt. destruct (g_gate g); reflexivity. Qed.
Lemma whole_prefix g tid pid file line args : whole_args g tid pid file line args = prefix_args g tid pid file line ++ args.
Proof. destruct g; reflexivity. Qed.
