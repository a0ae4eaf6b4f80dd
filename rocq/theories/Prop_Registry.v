(** Prop_Registry.v -- C56: activation functions and their names. *)
From Coq Require Import ZArith Bool String Ascii List Lia.
From Verif Require Import Base BaseProofs Activation Logger SpecLog NpyList Registry SpecRegistry.
Import ListNotations.
Local Open Scope nat_scope.

Section Props.
  Variable lib_opens : bytes -> bool.
  Variable dlsym : bytes -> bytes -> option (option nat).
  Let lookups := lookups lib_opens dlsym.
  Let get_func := get_activation_func lib_opens dlsym.

  Lemma split_at_spec name sy li : split_at name = Some (sy, li) <-> names_symbol name sy li.
  Proof.
    unfold names_symbol. split.
    - revert sy li. induction name as [|c s IH]; intros sy li H; [discriminate|]. cbn [split_at] in H.
      destruct (Ascii.eqb_spec c "@") as [-> |NC].
      + inversion H; subst. split; [reflexivity|]. intros [].
      + destruct (split_at s) as [[a b]|]; [|discriminate]. inversion H; subst. destruct (IH a li eq_refl) as (-> & NI).
        split; [reflexivity|]. intros [Q|Q]; [congruence|exact (NI Q)].
    - intros (-> & NI). induction sy as [|c s IH]; [reflexivity|]. cbn [app split_at].
      destruct (Ascii.eqb_spec c "@") as [-> |NC]; [exfalso; apply NI; left; reflexivity|].
      rewrite IH; [reflexivity|]. intros Q. apply NI. right. exact Q.
  Qed.

  (** a record: the name resolves to the function and the derivative is the one of the library *)
  Definition good (r : record) : Prop :=
    exists sy li f, names_symbol (rc_name r) sy li /\ lib_opens li = true /\ length sy <= 244
      /\ dlsym li sy = Some f /\ rc_func r = option_map Dyn f
      /\ rc_deriv r = match dlsym li (sy ++ txt "_derivative") with Some d => d | None => None end.

  Lemma bytes_eqb_eq s t : bytes_eqb s t = true <-> s = t.
  Proof. unfold bytes_eqb. destruct (list_eq_dec ascii_dec s t); split; congruence. Qed.

  Lemma find_builtin_at name sy li : names_symbol name sy li -> find_builtin builtin_names name = None.
  Proof.
    intros (-> & _). assert (IN : In "@"%char (sy ++ "@"%char :: li)) by (apply in_or_app; right; left; reflexivity).
    assert (G : forall l, Forall (fun p => ~ In "@"%char (chars (fst p))) l -> find_builtin l (sy ++ "@"%char :: li) = None).
    { induction l as [|[t a] l IH]; intros F; [reflexivity|]. cbn [find_builtin].
      destruct (bytes_eqb (sy ++ "@"%char :: li) (chars t)) eqn:E.
      - apply bytes_eqb_eq in E. apply Forall_inv in F. exfalso. apply F. cbn [fst]. rewrite <- E. exact IN.
      - apply IH. exact (Forall_inv_tail F). }
    apply G. unfold builtin_names. repeat constructor; cbn; intros Q; repeat (destruct Q as [Q|Q]; [discriminate|]); destruct Q.
  Qed.

  Lemma get_func_good st name st' f : Forall good st -> get_func st name = Ok (st', f) ->
    Forall good st' /\ (exists l, st' = st ++ l) /\
    (forall g, f = Some g -> (exists a, g = Builtin a) \/ exists r, In r st' /\ rc_func r = Some g).
  Proof.
    intros HG E. unfold get_func, get_activation_func in E. destruct (find_builtin builtin_names name) as [a|] eqn:EB.
    - assert (X : st = st' /\ Some (Builtin a) = f) by (split; congruence). destruct X as [<- <-].
      split; [exact HG|]. split; [exists []; rewrite app_nil_r; reflexivity|]. intros g Eg. left. exists a. congruence.
    - unfold get_func_dynamic in E. destruct (split_at name) as [[sy li]|] eqn:ES.
      2:{ assert (X : st = st' /\ None = f) by (split; congruence). destruct X as [<- <-].
          split; [exact HG|]. split; [exists []; rewrite app_nil_r; reflexivity|]. discriminate. }
      destruct (lib_opens li) eqn:EL; cbn [negb] in E.
      2:{ assert (X : st = st' /\ None = f) by (split; congruence). destruct X as [<- <-].
          split; [exact HG|]. split; [exists []; rewrite app_nil_r; reflexivity|]. discriminate. }
      destruct (Nat.ltb_spec 256 (length (sy ++ chars "_derivative") + 1)) as [|L]; [discriminate|].
      rewrite app_length in L. change (length (chars "_derivative")) with 11 in L.
      destruct (dlsym li sy) as [fo|] eqn:ED.
      2:{ assert (X : st = st' /\ None = f) by (split; congruence). destruct X as [<- <-].
          split; [exact HG|]. split; [exists []; rewrite app_nil_r; reflexivity|]. discriminate. }
      match type of E with Ok (st ++ [?r], _) = _ => assert (X : st' = st ++ [r] /\ f = option_map Dyn fo) by (split; congruence) end.
      destruct X as [-> ->]. split.
      { apply Forall_app. split; [exact HG|]. constructor; [|constructor]. exists sy, li, fo. cbn [rc_name rc_func rc_deriv].
        repeat split; try assumption; try lia; apply split_at_spec in ES; apply ES. }
      split; [eexists; reflexivity|]. intros g Eg. right. eexists. split; [apply in_or_app; right; left; reflexivity|]. exact Eg.
  Qed.

  Lemma lookups_good names : forall st st' fs, Forall good st -> lookups st names = Ok (st', fs) ->
    Forall good st' /\ (exists l, st' = st ++ l) /\
    (forall g, In (Some g) fs -> (exists a, g = Builtin a) \/ exists r, In r st' /\ rc_func r = Some g).
  Proof.
    induction names as [|s names IH]; intros st st' fs HG E; unfold lookups in E; cbn [Registry.lookups] in E.
    - assert (X : st = st' /\ [] = fs) by (split; congruence). destruct X as [<- <-].
      split; [exact HG|]. split; [exists []; rewrite app_nil_r; reflexivity|]. intros g [].
    - fold get_func in E. destruct (get_func st s) as [[st1 f]|] eqn:E1; [|discriminate]. cbn [rbind fst snd] in E.
      destruct (get_func_good _ _ _ _ HG E1) as (G1 & (l1 & P1) & R1). fold lookups in E.
      destruct (lookups st1 names) as [[st2 fs2]|] eqn:E2; [|discriminate]. cbn [rbind fst snd] in E.
      destruct (IH _ _ _ G1 E2) as (G2 & (l2 & P2) & R2).
      assert (X : st2 = st' /\ f :: fs2 = fs) by (split; congruence). destruct X as [<- <-].
      split; [exact G2|]. split; [exists (l1 ++ l2); rewrite app_assoc; rewrite <- P1; exact P2|].
      intros g [Q|Q]; [|apply R2; exact Q]. destruct (R1 g Q) as [R|(r & I & R)]; [left; exact R|].
      right. exists r. split; [|exact R]. rewrite P2. apply in_or_app. left. exact I.
  Qed.

  Lemma find_func st f : (exists r, In r st /\ rc_func r = Some f) ->
    exists r, find (is_func f) st = Some r /\ In r st /\ rc_func r = Some f.
  Proof.
    intros (r & I & E). destruct (find (is_func f) st) as [r'|] eqn:EF.
    - apply find_some in EF. destruct EF as (I' & E'). exists r'. split; [reflexivity|]. split; [exact I'|].
      unfold is_func in E'. destruct (rc_func r') as [g|]; [|discriminate]. destruct (fn_eq_dec f g); [congruence|discriminate].
    - exfalso. pose proof (find_none _ _ EF r I) as Q. unfold is_func in Q. rewrite E in Q. destruct (fn_eq_dec f f); [discriminate|congruence].
  Qed.

  (** after any sequence of lookups that does not overrun the buffer, the name of each function that one of them
      returned leads back to the function *)
  Theorem registry_round_trip names st fs f : lookups [] names = Ok (st, fs) -> In (Some f) fs ->
    exists st', get_func st (get_activation_name st f) = Ok (st', Some f).
  Proof.
    intros E I. destruct (lookups_good _ _ _ _ (Forall_nil _) E) as (G & _ & R). destruct (R f I) as [(a & ->)|EX].
    - exists st. destruct a; reflexivity.
    - destruct (find_func st f EX) as (r & EF & IR & ER).
      rewrite Forall_forall in G. destruct (G r IR) as (sy & li & fo & NS & LO & LN & DS & RF & _).
      assert (NB : exists n, f = Dyn n). { rewrite ER in RF. destruct fo as [n|]; [|discriminate]. exists n. cbn in RF. congruence. }
      destruct NB as (n & ->). unfold get_activation_name. rewrite EF.
      unfold get_func, get_activation_func. rewrite (find_builtin_at _ _ _ NS). unfold get_func_dynamic.
      assert (ES : split_at (rc_name r) = Some (sy, li)) by (apply split_at_spec; exact NS). rewrite ES, LO. cbn [negb].
      destruct (Nat.ltb_spec 256 (length (sy ++ chars "_derivative") + 1)) as [Q|_];
        [rewrite app_length in Q; change (length (chars "_derivative")) with 11 in Q; lia|].
      rewrite DS. eexists. rewrite <- RF, ER. reflexivity.
  Qed.

  (** the derivative of a built-in function is its own; the one of a loaded function is the symbol with _derivative
      of a library in which the symbol is the function, NULL if there is none *)
  Theorem registry_derivative names st fs f : lookups [] names = Ok (st, fs) -> In (Some f) fs ->
    match f with
    | Builtin a => get_activation_derivative st f = Some (DBuiltin a)
    | Dyn n => exists sy li, names_symbol (get_activation_name st f) sy li /\ lib_opens li = true /\ dlsym li sy = Some (Some n)
        /\ get_activation_derivative st f
           = match dlsym li (sy ++ txt "_derivative") with Some d => option_map DDyn d | None => None end
    end.
  Proof.
    intros E I. destruct (lookups_good _ _ _ _ (Forall_nil _) E) as (G & _ & R). destruct (R f I) as [(a & ->)|EX]; [reflexivity|].
    destruct (find_func st f EX) as (r & EF & IR & ER).
    rewrite Forall_forall in G. destruct (G r IR) as (sy & li & fo & NS & LO & LN & DS & RF & RD).
    rewrite ER in RF. destruct fo as [n|]; [|discriminate]. cbn in RF. assert (EN : f = Dyn n) by congruence. rewrite EN in *.
    exists sy, li. unfold get_activation_name, get_activation_derivative. rewrite EF. repeat split; try assumption; try apply NS.
    rewrite RD. destruct (dlsym li (sy ++ txt "_derivative")) as [d|]; reflexivity.
  Qed.

  Lemma find_builtin_some name a : find_builtin builtin_names name = Some a -> named lib_opens dlsym name (Builtin a).
  Proof.
    unfold builtin_names. cbn [find_builtin].
    do 9 (match goal with |- (if ?c then _ else _) = _ -> _ => destruct c eqn:? end;
      [match goal with E : bytes_eqb _ _ = true |- _ => apply bytes_eqb_eq in E; rewrite E end;
       intros Q; injection Q as <-; constructor|]). discriminate.
  Qed.
  Lemma named_fun name f g : named lib_opens dlsym name f -> named lib_opens dlsym name g -> f = g.
  Proof.
    assert (AT : forall nm sy li, names_symbol nm sy li -> In "@"%char nm).
    { intros nm sy li (-> & _). apply in_or_app. right. left. reflexivity. }
    intros H1 H2.
    destruct H1 as [| | | | | | | | |nm sy li n NS LO DS]; inversion H2 as [| | | | | | | | |nm' sy' li' n' NS' LO' DS']; subst; try reflexivity;
      try (apply AT in NS'; cbn in NS'; exfalso; repeat (destruct NS' as [NS'|NS']; [discriminate|]); destruct NS');
      try (apply AT in NS; cbn in NS; exfalso; repeat (destruct NS as [NS|NS]; [discriminate|]); destruct NS).
    apply split_at_spec in NS. apply split_at_spec in NS'. rewrite NS in NS'. injection NS' as -> ->. congruence.
  Qed.

  (** looking up a name gives the function it stands for, NULL if there is none; old records stay *)
  Theorem registry_lookup st name : short_symbol lib_opens name ->
    exists st' f, get_func st name = Ok (st', f) /\ (exists l, st' = st ++ l)
      /\ (forall g, f = Some g <-> named lib_opens dlsym name g).
  Proof.
    intros SH.
    assert (X : exists st' f, get_func st name = Ok (st', f) /\ (exists l, st' = st ++ l)
      /\ match f with Some g => named lib_opens dlsym name g | None => forall g, ~ named lib_opens dlsym name g end).
    { unfold get_func, get_activation_func. destruct (find_builtin builtin_names name) as [a|] eqn:EB.
      { exists st, (Some (Builtin a)). split; [reflexivity|]. split; [exists []; rewrite app_nil_r; reflexivity|]. apply find_builtin_some. exact EB. }
      unfold get_func_dynamic. destruct (split_at name) as [[sy li]|] eqn:ES.
      - pose proof ES as NS. apply split_at_spec in NS.
        assert (NB : forall g, named lib_opens dlsym name g -> lib_opens li = true /\ exists n, g = Dyn n /\ dlsym li sy = Some (Some n)).
        { intros g NG. destruct NG as [| | | | | | | | |nm sy' li' n NS' LO DS]; try (vm_compute in EB; discriminate).
          apply split_at_spec in NS'. rewrite ES in NS'. injection NS' as <- <-. split; [exact LO|]. exists n. split; [reflexivity|exact DS]. }
        destruct (lib_opens li) eqn:LO; cbn [negb].
        + pose proof (SH sy li NS LO) as L.
          destruct (Nat.ltb_spec 256 (length (sy ++ chars "_derivative") + 1)) as [Q|_];
            [rewrite app_length in Q; change (length (chars "_derivative")) with 11 in Q; lia|].
          destruct (dlsym li sy) as [f|] eqn:DS.
          * eexists. eexists. split; [reflexivity|]. split; [eexists; reflexivity|]. destruct f as [n|]; cbn [option_map].
            -- eapply named_symbol; eassumption.
            -- intros g NG. destruct (NB g NG) as (_ & n & _ & Q). discriminate.
          * exists st, None. split; [reflexivity|]. split; [exists []; rewrite app_nil_r; reflexivity|].
            intros g NG. destruct (NB g NG) as (_ & n & _ & Q). discriminate.
        + exists st, None. split; [reflexivity|]. split; [exists []; rewrite app_nil_r; reflexivity|].
          intros g NG. destruct (NB g NG) as (Q & _). discriminate.
      - exists st, None. split; [reflexivity|]. split; [exists []; rewrite app_nil_r; reflexivity|].
        intros g NG. destruct NG as [| | | | | | | | |nm sy' li' n NS' LO DS]; try (vm_compute in EB; discriminate).
        apply split_at_spec in NS'. congruence. }
    destruct X as (st' & f & E & P & N). exists st', f. split; [exact E|]. split; [exact P|]. intros g. destruct f as [f|].
    - split; [intros Q; injection Q as <-; exact N|]. intros NG. f_equal. eapply named_fun; eassumption.
    - split; [discriminate|]. intros NG. destruct (N g NG).
  Qed.

  Lemma lookups_records names : forall st st' fs r f, lookups st names = Ok (st', fs) -> In r st' -> rc_func r = Some f -> In r st \/ In (Some f) fs.
  Proof.
    induction names as [|s names IH]; intros st st' fs r f E I R; unfold lookups in E; cbn [Registry.lookups] in E.
    - injection E as <- <-. left. exact I.
    - destruct (get_activation_func lib_opens dlsym st s) as [[st1 g]|] eqn:E1; [|discriminate]. cbn [rbind fst snd] in E.
      destruct (Registry.lookups lib_opens dlsym st1 names) as [[st2 gs]|] eqn:E2; [|discriminate]. cbn [rbind fst snd] in E. injection E as <- <-.
      destruct (IH _ _ _ _ _ E2 I R) as [I1|I1]; [|right; right; exact I1].
      unfold get_activation_func in E1. destruct (find_builtin builtin_names s) as [a|]; [injection E1 as <- _; left; exact I1|].
      unfold get_func_dynamic in E1. destruct (split_at s) as [[sy li]|]; [|injection E1 as <- _; left; exact I1].
      destruct (negb (lib_opens li)); [injection E1 as <- _; left; exact I1|].
      cbv zeta in E1. destruct (256 <? length (sy ++ chars "_derivative") + 1); [discriminate E1|].
      destruct (dlsym li sy) as [h|]; [|injection E1 as <- _; left; exact I1]. injection E1 as <- <-.
      apply in_app_or in I1. destruct I1 as [I1|[<-|[]]]; [left; exact I1|]. right. left. cbn in R. exact R.
  Qed.
  (** a function of a shared object that no lookup has returned is called (unknown), has no derivative, and that name
      leads to no function *)
  Theorem registry_foreign names st fs n : lookups [] names = Ok (st, fs) -> ~ In (Some (Dyn n)) fs ->
    get_activation_name st (Dyn n) = txt "(unknown)" /\ get_activation_derivative st (Dyn n) = None
    /\ get_func st (get_activation_name st (Dyn n)) = Ok (st, None).
  Proof.
    intros E NI. assert (N : find (is_func (Dyn n)) st = None).
    { destruct (find (is_func (Dyn n)) st) as [r|] eqn:EF; [|reflexivity]. exfalso. apply find_some in EF. destruct EF as (I & Q).
      unfold is_func in Q. destruct (rc_func r) as [g|] eqn:ER; [|discriminate]. destruct (fn_eq_dec (Dyn n) g) as [<-|]; [|discriminate].
      destruct (lookups_records _ _ _ _ _ _ E I ER) as [[]|I2]. exact (NI I2). }
    assert (NM : get_activation_name st (Dyn n) = txt "(unknown)") by (unfold get_activation_name; rewrite N; reflexivity).
    split; [exact NM|]. split; [unfold get_activation_derivative; rewrite N; reflexivity|]. rewrite NM. reflexivity.
  Qed.

  (** asking for a symbol that is not there, or a name without @, gives NULL and changes nothing *)
  Theorem registry_unknown st name : (forall a, ~ named lib_opens dlsym name (Builtin a)) ->
    (~ In "@"%char name -> get_func st name = Ok (st, None))
    /\ (forall sy li, names_symbol name sy li -> lib_opens li = false \/ (length sy <= 244 /\ dlsym li sy = None) -> get_func st name = Ok (st, None)).
  Proof.
    intros NB. assert (EB : find_builtin builtin_names name = None).
    { destruct (find_builtin builtin_names name) as [a|] eqn:EB; [|reflexivity]. destruct (NB a). apply find_builtin_some. exact EB. }
    unfold get_func, get_activation_func. rewrite EB. unfold get_func_dynamic. split.
    - intros NI. destruct (split_at name) as [[sy li]|] eqn:ES; [|reflexivity]. apply split_at_spec in ES. destruct ES as (-> & _).
      exfalso. apply NI. apply in_or_app. right. left. reflexivity.
    - intros sy li NS H. apply split_at_spec in NS. rewrite NS. destruct H as [-> |(L & D)]; [reflexivity|].
      destruct (lib_opens li); [|reflexivity]. cbn [negb].
      destruct (Nat.ltb_spec 256 (length (sy ++ chars "_derivative") + 1)) as [Q|_];
        [rewrite app_length in Q; change (length (chars "_derivative")) with 11 in Q; lia|]. rewrite D. reflexivity.
  Qed.

  (** REFUTED for long symbols: with more than 244 characters the buffer for the name of the derivative is overrun *)
  Theorem registry_long_symbol_refuted st name sy li :
    names_symbol name sy li -> lib_opens li = true -> 244 < length sy -> get_func st name = Fault OutOfBounds.
  Proof.
    intros NS LO L. unfold get_func, get_activation_func. rewrite (find_builtin_at _ _ _ NS). unfold get_func_dynamic.
    apply split_at_spec in NS. rewrite NS, LO. cbn [negb].
    destruct (Nat.ltb_spec 256 (length (sy ++ chars "_derivative") + 1)) as [_|Q]; [reflexivity|].
    rewrite app_length in Q. change (length (chars "_derivative")) with 11 in Q. lia.
  Qed.
End Props.
Print Assumptions registry_round_trip.
Print Assumptions registry_derivative.
Print Assumptions registry_foreign.
Print Assumptions registry_unknown.
Print Assumptions registry_lookup.
Print Assumptions registry_long_symbol_refuted.

(** a library libx.so with the symbols swish (also called silu) and swish_derivative *)
Definition ex_dlsym (li sy : bytes) : option (option nat) :=
  if bytes_eqb sy (txt "swish") then Some (Some 1) else if bytes_eqb sy (txt "silu") then Some (Some 1)
  else if bytes_eqb sy (txt "swish_derivative") then Some (Some 2) else None.
Example registry_round_trip_ex :
  exists st, lookups (fun _ => true) ex_dlsym [] [txt "relu"; txt "silu@libx.so"; txt "swish@libx.so"; txt "gelu@libx.so"; txt "foo"]
             = Ok (st, [Some (Builtin Relu); Some (Dyn 1); Some (Dyn 1); None; None])
    /\ get_activation_name st (Dyn 1) = txt "silu@libx.so" /\ length st = 2.
Proof. eexists. split; [vm_compute; reflexivity|]. split; vm_compute; reflexivity. Qed.
(** one lookup of swish: the function with the address 2, its derivative, was not returned *)
Example registry_foreign_ex : exists st, lookups (fun _ => true) ex_dlsym [] [txt "swish@libx.so"] = Ok (st, [Some (Dyn 1)])
  /\ ~ In (Some (Dyn 2)) [Some (Dyn 1)] /\ get_activation_name st (Dyn 2) = txt "(unknown)".
Proof. eexists. split; [vm_compute; reflexivity|]. split; [intros [Q|[]]; discriminate|vm_compute; reflexivity]. Qed.
Example registry_lookup_ex : short_symbol (fun _ => true) (txt "silu@libx.so") /\ named (fun _ => true) ex_dlsym (txt "silu@libx.so") (Dyn 1).
Proof.
  split.
  - intros sy li (E & N) _. do 5 (destruct sy as [|? sy]; [cbn; lia|]). cbn in E. inversion E; subst.
    exfalso. apply N. right. right. right. right. left. reflexivity.
  - apply named_symbol with (sy := txt "silu") (li := txt "libx.so"); [split; [reflexivity|]|reflexivity|vm_compute; reflexivity].
    intros Q. cbn in Q. repeat (destruct Q as [Q|Q]; [discriminate|]). destruct Q.
Qed.
(** REFUTED, if the derivative is expected to be the one that goes with the name that was asked for: two names of the
    same function share the record of the first *)
Example registry_alias_refuted :
  exists st, lookups (fun _ => true) ex_dlsym [] [txt "silu@libx.so"; txt "swish@libx.so"] = Ok (st, [Some (Dyn 1); Some (Dyn 1)])
    /\ ex_dlsym (txt "libx.so") (txt "swish_derivative") = Some (Some 2) /\ get_activation_derivative st (Dyn 1) = None.
Proof. eexists. split; [vm_compute; reflexivity|]. split; vm_compute; reflexivity. Qed.
(** the hypotheses of registry_long_symbol_refuted *)
Example registry_long_symbol_ex : names_symbol (repeat "a"%char 245 ++ "@"%char :: txt "x.so") (repeat "a"%char 245) (txt "x.so")
  /\ 244 < length (repeat "a"%char 245).
Proof. split; [split; [reflexivity|]; intros Q; apply repeat_spec in Q; discriminate|]. rewrite repeat_length. lia. Qed.
