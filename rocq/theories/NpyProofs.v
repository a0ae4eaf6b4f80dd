(** NpyProofs.v -- lemmas about Npy.v. *)
From Coq Require Import ZArith Bool String Ascii List Lia.
From Verif Require Import Base BaseProofs Logger SpecLog LoggerProofs Npy SpecNpy.
Import ListNotations.
Local Open Scope nat_scope.

(** ** searching *)
Fixpoint no_pair (a b : ascii) (s : bytes) : bool :=
  match s with
  | x :: r => match r with y :: _ => negb (Ascii.eqb x a && Ascii.eqb y b) | [] => true end && no_pair a b r
  | [] => true
  end.

Lemma no_pair_skip a b x r : Ascii.eqb x a = false -> no_pair a b (x :: r) = no_pair a b r.
Proof. intros H. cbn [no_pair]. rewrite H. destruct r; reflexivity. Qed.
Lemma no_pair_skip2 a b x y r : Ascii.eqb y b = false -> no_pair a b (x :: y :: r) = no_pair a b (y :: r).
Proof. intros H. change (no_pair a b (x :: y :: r)) with (negb (Ascii.eqb x a && Ascii.eqb y b) && no_pair a b (y :: r)).
  rewrite H, andb_false_r. reflexivity. Qed.
Lemma no_pair_digits a b ds r : is_digit a = false -> Forall (fun c => is_digit c = true) ds ->
  no_pair a b (ds ++ r) = no_pair a b r.
Proof.
  intros Ha. induction 1 as [|c ds Hc H IH]; [reflexivity|]. cbn [app]. rewrite no_pair_skip; [exact IH|].
  apply Ascii.eqb_neq. intros ->. congruence.
Qed.

Lemma strstr_pair a b p A B : no_pair a b (A ++ [a]) = true -> strstr (A ++ (a :: b :: p) ++ B) (a :: b :: p) = Some (length A).
Proof.
  induction A as [|x A IH]; intros H.
  - cbn [app length]. cbn [strstr]. change (a :: b :: p ++ B) with ((a :: b :: p) ++ B). rewrite is_prefix_app. reflexivity.
  - cbn [app] in *. cbn [no_pair] in H. apply andb_prop in H. destruct H as [H1 H2].
    assert (NP : is_prefix (a :: b :: p) (x :: A ++ a :: b :: p ++ B) = false).
    { cbn [is_prefix]. destruct (Ascii.eqb a x) eqn:E1; [|reflexivity]. cbn [andb].
      apply Ascii.eqb_eq in E1. subst x.
      destruct A as [|y A]; cbn [app] in *.
      - rewrite Ascii.eqb_refl in H1. cbn [andb] in H1. apply negb_true_iff in H1. rewrite Ascii.eqb_sym in H1. rewrite H1. reflexivity.
      - rewrite Ascii.eqb_refl in H1. cbn [andb] in H1. apply negb_true_iff in H1. rewrite Ascii.eqb_sym in H1. rewrite H1. reflexivity. }
    cbn [strstr]. change (a :: b :: p) with (a :: b :: p) in NP.
    match goal with |- context[is_prefix ?u ?v] => replace (is_prefix u v) with false by (symmetry; exact NP) end.
    cbn [app] in IH. rewrite (IH H2). reflexivity.
Qed.

(** ** numbers *)
Lemma parse_value' : forall s acc v c r, digits_value acc s = Some v -> is_digit c = false -> parse acc (s ++ c :: r) = v.
Proof.
  induction s as [|d s IH]; intros acc v c r H Hc.
  - simpl in H. inversion H; subst. cbn [app parse]. unfold digit_of. cbv zeta. unfold is_digit in Hc. cbv zeta in Hc. rewrite Hc. reflexivity.
  - cbn [app parse]. cbn [digits_value] in H. cbv zeta in H. unfold digit_of. cbv zeta.
    destruct ((48 <=? nat_of_ascii d) && (nat_of_ascii d <=? 57)) eqn:E; [|discriminate].
    apply IH; [|exact Hc]. rewrite <- H. f_equal. apply andb_prop in E. destruct E as [E _]. apply Nat.leb_le in E. lia.
Qed.
Lemma parse_value_end : forall s acc v, digits_value acc s = Some v -> parse acc s = v.
Proof.
  induction s as [|d s IH]; intros acc v H.
  - simpl in H. inversion H. reflexivity.
  - cbn [parse]. cbn [digits_value] in H. cbv zeta in H. unfold digit_of. cbv zeta.
    destruct ((48 <=? nat_of_ascii d) && (nat_of_ascii d <=? 57)) eqn:E; [|discriminate].
    apply IH. rewrite <- H. f_equal. apply andb_prop in E. destruct E as [E _]. apply Nat.leb_le in E. lia.
Qed.

Lemma a_digit_iff c : is_digit c = true <-> a_digit c.
Proof.
  unfold is_digit, a_digit. cbv zeta. rewrite andb_true_iff, !Nat.leb_le. reflexivity.
Qed.
Lemma not_digit c : ~ a_digit c -> is_digit c = false.
Proof. intros H. destruct (is_digit c) eqn:E; [|reflexivity]. apply a_digit_iff in E. contradiction. Qed.
Lemma digit_of_digit c : digit_of c = if is_digit c then Some (Z.of_nat (nat_of_ascii c - 48)) else None.
Proof. reflexivity. Qed.

Lemma value_all : forall s acc v, digits_value acc s = Some v -> Forall (fun c => is_digit c = true) s.
Proof.
  induction s as [|a s IH]; intros acc v H; constructor; [exact (value_digit _ _ _ _ H)|].
  cbn [digits_value] in H. cbv zeta in H. destruct (_ && _); [|discriminate]. exact (IH _ _ H).
Qed.

Lemma take_digits_app num s : Forall (fun c => is_digit c = true) num -> no_digit_first s -> take_digits (num ++ s) = num.
Proof.
  induction 1 as [|c num Hc H IH]; intros HS.
  - cbn [app]. destruct s as [|c s]; [reflexivity|]. cbn [take_digits]. rewrite digit_of_digit, (not_digit c HS). reflexivity.
  - cbn [app take_digits]. rewrite digit_of_digit, Hc. f_equal. apply IH. exact HS.
Qed.

Lemma clamp_small z : (0 <= z < 9223372036854775808)%Z -> clamp z = z.
Proof. unfold clamp. lia. Qed.
Lemma to_size_small z : (0 <= z < size_max1)%Z -> to_size z = z.
Proof. intros H. unfold to_size. apply Z.mod_small. exact H. Qed.

(** ** the shape *)
Lemma numeral_pos d num : (0 <= d)%Z -> numeral d num -> num <> [] /\ digits_value 0 num = Some d.
Proof. intros H [(_ & A & B)|(N & _)]; [split; assumption|lia]. Qed.

Lemma scan_skip sep : Forall separator sep -> forall fuel s dims0, length sep <= fuel ->
  scan_shape fuel (sep ++ s) dims0 = scan_shape (fuel - length sep) s dims0.
Proof.
  induction 1 as [|c sep Hc H IH]; intros fuel s' dims0 HF; [simpl; rewrite Nat.sub_0_r; reflexivity|].
  destruct fuel as [|fuel]; [simpl in HF; lia|]. cbn [app scan_shape length]. destruct Hc as (H1 & H2 & H3).
  apply Ascii.eqb_neq in H2. rewrite H2, digit_of_digit, (not_digit c H1). rewrite IH by (simpl in HF; lia). reflexivity.
Qed.

Lemma scan_shape_ok dims s : shape_text dims s -> forall fuel r dims0,
  length s < fuel -> length dims0 + length dims < 8 -> Forall (fun d => (d < 9223372036854775808)%Z) dims ->
  scan_shape fuel (s ++ ")"%char :: r) dims0 = Ok (dims0 ++ dims).
Proof.
  induction 1 as [s HS|d dims sep num s HS Hd HN HF HT IH]; intros fuel r dims0 LF LD HB.
  - rewrite scan_skip by (try exact HS; lia). rewrite app_nil_r. destruct (fuel - length s) eqn:E; [lia|].
    cbn [scan_shape]. change (Ascii.eqb ")" ")") with true. reflexivity.
  - rewrite !app_length in LF. rewrite <- !app_assoc. rewrite scan_skip by (try exact HS; lia).
    destruct (numeral_pos d num Hd HN) as (NE & V). pose proof (value_all _ _ _ V) as AD.
    destruct (fuel - length sep) as [|f] eqn:E; [lia|]. destruct num as [|c num]; [congruence|].
    inversion AD as [|? ? Dc AD']; subst.
    inversion HB as [|? ? Bd HB']; subst.
    assert (TD : take_digits ((c :: num) ++ s ++ ")"%char :: r) = c :: num).
    { apply take_digits_app; [exact AD|]. destruct s as [|c' s']; [|exact HF]. cbn [app]. unfold no_digit_first, a_digit.
      change (nat_of_ascii ")") with 41. lia. }
    change ((c :: num) ++ s ++ ")"%char :: r) with (c :: (num ++ s ++ ")"%char :: r)) in *.
    cbn [scan_shape]. destruct (Ascii.eqb_spec c ")") as [->|NC]; [discriminate Dc|].
    rewrite digit_of_digit, Dc. rewrite TD, (parse_value_end _ _ _ V).
    rewrite (clamp_small d) by lia. rewrite app_length. cbn [length].
    destruct (Nat.ltb_spec (length dims0 + 1) max_dims) as [_|L]; [|unfold max_dims in L; cbn [length] in LD; lia].
    cbn [length skipn].
    replace (skipn (length num) (num ++ s ++ ")"%char :: r)) with (s ++ ")"%char :: r).
    2:{ rewrite skipn_app, skipn_all, Nat.sub_diag. reflexivity. }
    rewrite (IH f r (dims0 ++ [d])).
    + rewrite <- app_assoc. reflexivity.
    + cbn [length] in LF. lia.
    + rewrite app_length. cbn [length] in *. lia.
    + exact HB'.
Qed.

Lemma shape_no_nul dims s : shape_text dims s -> Forall (fun c => c <> nul) s.
Proof.
  induction 1 as [s HS|d dims sep num s HS Hd HN HF HT IH].
  - eapply Forall_impl; [|exact HS]. intros c (_ & _ & H). exact H.
  - apply Forall_app. split; [eapply Forall_impl; [|exact HS]; intros c (_ & _ & H); exact H|].
    apply Forall_app. split; [|exact IH]. destruct (numeral_pos d num Hd HN) as (_ & V).
    eapply Forall_impl; [|exact (value_all _ _ _ V)]. intros c Hc ->. discriminate Hc.
Qed.

(** ** the dictionary *)
Section Dict.
  Variables (e t : ascii) (num : bytes) (es : Z) (fo : bool) (dims : list Z) (shape tail : bytes).
  Hypothesis He : In e ["<"; ">"; "|"]%char.
  Hypothesis Ht : t <> nul.
  Hypothesis Hes : (0 < es < 9223372036854775808)%Z.
  Hypothesis Hnum : numeral es num.
  Hypothesis Hshape : shape_text dims shape.
  Hypothesis Htail : Forall (fun c => c <> nul) tail.

  Let text := npy_dict e t num fo shape tail.

  Lemma num_facts : num <> [] /\ digits_value 0 num = Some es /\ Forall (fun c => is_digit c = true) num.
  Proof. destruct (numeral_pos es num ltac:(lia) Hnum) as (A & B). split; [exact A|]. split; [exact B|exact (value_all _ _ _ B)]. Qed.

  Lemma text_no_nul : Forall (fun c => c <> nul) text.
  Proof.
    destruct num_facts as (_ & _ & AD). unfold text, npy_dict.
    apply Forall_app. split; [repeat constructor; discriminate|].
    apply Forall_app. split; [constructor; [|constructor; [exact Ht|constructor]]|].
    { destruct He as [<-|[<-|[<-|[]]]]; discriminate. }
    apply Forall_app. split; [eapply Forall_impl; [|exact AD]; intros c Hc ->; discriminate Hc|].
    apply Forall_app. split; [repeat constructor; discriminate|].
    apply Forall_app. split; [destruct fo; repeat constructor; discriminate|].
    apply Forall_app. split; [repeat constructor; discriminate|].
    apply Forall_app. split; [exact (shape_no_nul _ _ Hshape)|].
    apply Forall_app. split; [repeat constructor; discriminate|exact Htail].
  Qed.

  Lemma cstr_text : cstr (text ++ [nul]) = Some text.
  Proof. apply cstr_app. exact text_no_nul. Qed.

  (** the part in front of "'fortran_order': " and of "'shape': " has no other start of these items *)
  Definition front1 : bytes := txt "{'descr': '" ++ [e; t] ++ num ++ txt "', ".
  Definition front2 : bytes := front1 ++ txt "'fortran_order': " ++ txt (if fo then "True" else "False") ++ txt ", ".

  Lemma front_pair (c : ascii) r : c = "f"%char \/ c = "s"%char ->
    no_pair "'" c (txt "{'descr': '" ++ [e; t] ++ num ++ r) = no_pair "'" c r.
  Proof.
    intros Hc. destruct num_facts as (NE & _ & AD).
    assert (E1 : Ascii.eqb e "'" = false /\ Ascii.eqb e c = false).
    { destruct He as [<-|[<-|[<-|[]]]], Hc as [-> | ->]; split; reflexivity. }
    transitivity (no_pair "'" c (e :: t :: num ++ r)).
    { cbn [txt list_ascii_of_string app]. repeat (rewrite no_pair_skip by reflexivity).
      rewrite no_pair_skip2 by (destruct Hc as [-> | ->]; reflexivity).
      repeat (rewrite no_pair_skip by reflexivity).
      rewrite no_pair_skip2 by (destruct Hc as [-> | ->]; reflexivity).
      repeat (rewrite no_pair_skip by reflexivity).
      apply no_pair_skip2. exact (proj2 E1). }
    rewrite no_pair_skip by exact (proj1 E1).
    rewrite <- (no_pair_digits "'" c num r) by (try reflexivity; exact AD).
    destruct num as [|d num']; [congruence|]. cbn [app]. apply no_pair_skip2.
    inversion AD as [|? ? Dd _]; subst. apply Ascii.eqb_neq. intros ->. destruct Hc as [-> | ->]; discriminate Dd.
  Qed.

  Lemma find_descr : find_header_item "'descr': '" (text ++ [nul]) = Ok (Some 11).
  Proof.
    unfold find_header_item. rewrite cstr_text. reflexivity.
  Qed.

  Lemma find_fortran : find_header_item "'fortran_order': " (text ++ [nul]) = Ok (Some (length front1 + 17)).
  Proof.
    unfold find_header_item. rewrite cstr_text. f_equal.
    assert (E : text = front1 ++ ("'"%char :: "f"%char :: chars "ortran_order': ") ++
       (txt (if fo then "True" else "False") ++ txt ", 'shape': (" ++ shape ++ txt ")" ++ tail)).
    { unfold text, npy_dict, front1. rewrite <- !app_assoc. reflexivity. }
    rewrite E. change (chars "'fortran_order': ") with ("'"%char :: "f"%char :: chars "ortran_order': ").
    rewrite strstr_pair; [reflexivity|]. unfold front1. rewrite <- !app_assoc. rewrite front_pair by (left; reflexivity). reflexivity.
  Qed.

  Lemma find_shape : find_header_item "'shape': " (text ++ [nul]) = Ok (Some (length front2 + 9)).
  Proof.
    unfold find_header_item. rewrite cstr_text. f_equal.
    assert (E : text = front2 ++ ("'"%char :: "s"%char :: chars "hape': ") ++ (txt "(" ++ shape ++ txt ")" ++ tail)).
    { unfold text, npy_dict, front2, front1. rewrite <- !app_assoc. reflexivity. }
    rewrite E. change (chars "'shape': ") with ("'"%char :: "s"%char :: chars "hape': ").
    rewrite strstr_pair; [reflexivity|]. unfold front2, front1. rewrite <- !app_assoc. rewrite front_pair by (right; reflexivity).
    destruct fo; reflexivity.
  Qed.

  Lemma parse_header_gen : parse_header (text ++ [nul]) =
    rbind (scan_shape (S (length (text ++ [nul]))) (("("%char :: shape) ++ ")"%char :: (tail ++ [nul])) [])
      (fun dims => Ok (e, t, es, fo, dims)).
  Proof.
    destruct num_facts as (NE & V & AD).
    unfold parse_header. rewrite find_descr. cbn [rbind].
    change (char_at (text ++ [nul]) 11) with (@Ok ascii e). cbn [rbind].
    change (char_at (text ++ [nul]) (11 + 1)) with (@Ok ascii t). cbn [rbind].
    set (rest1 := txt "', 'fortran_order': " ++ txt (if fo then "True" else "False") ++ txt ", 'shape': (" ++ shape ++ txt ")" ++ tail).
    assert (S1 : skipn (11 + 2) (text ++ [nul]) = (num ++ rest1) ++ [nul]).
    { unfold text, npy_dict, rest1. rewrite <- !app_assoc. reflexivity. }
    rewrite S1. rewrite cstr_app.
    2:{ pose proof text_no_nul as TN. unfold text, npy_dict in TN. apply Forall_app in TN. destruct TN as [_ TN].
        apply Forall_app in TN. exact (proj2 TN). }
    assert (ST : strtol (num ++ rest1) = es).
    { unfold strtol. destruct num as [|c num'] eqn:En; [congruence|]. inversion AD as [|? ? Dc _]; subst.
      destruct (digit_not c Dc) as (Q1 & Q2 & Q3). cbn [app skip_space]. rewrite Q1, Q2, Q3.
      etransitivity; [|apply (clamp_small es); lia]. f_equal.
      exact (parse_value' (c :: num') 0%Z es "'"%char _ V eq_refl). }
    rewrite ST. rewrite to_size_small by (unfold size_max1; lia).
    destruct (Z.eqb_spec es 0) as [Q|_]; [lia|].
    rewrite find_fortran. cbn [rbind].
    assert (S2 : skipn (length front1 + 17) (text ++ [nul])
      = txt (if fo then "True" else "False") ++ (txt ", 'shape': (" ++ shape ++ txt ")" ++ tail) ++ [nul]).
    { replace (text ++ [nul]) with (front1 ++ (txt "'fortran_order': " ++ (txt (if fo then "True" else "False") ++ (txt ", 'shape': (" ++ shape ++ txt ")" ++ tail) ++ [nul]))).
      2:{ unfold text, npy_dict, front1. rewrite <- !app_assoc. reflexivity. }
      rewrite skipn_app. rewrite skipn_all2 by lia. replace (length front1 + 17 - length front1) with 17 by lia. reflexivity. }
    rewrite S2. rewrite find_shape. cbn [rbind].
    assert (S3 : skipn (length front2 + 9) (text ++ [nul]) = ("("%char :: shape) ++ ")"%char :: (tail ++ [nul])).
    { replace (text ++ [nul]) with (front2 ++ (txt "'shape': " ++ (("("%char :: shape) ++ ")"%char :: (tail ++ [nul])))).
      2:{ unfold text, npy_dict, front2, front1. rewrite <- !app_assoc. reflexivity. }
      rewrite skipn_app. rewrite skipn_all2 by lia. replace (length front2 + 9 - length front2) with 9 by lia. reflexivity. }
    rewrite S3.
    destruct (scan_shape _ _ []) as [ds|]; cbn [rbind]; [|reflexivity]. f_equal. f_equal. f_equal.
    - f_equal. f_equal. f_equal. destruct He as [<-|[<-|[<-|[]]]]; reflexivity.
    - destruct fo; reflexivity.
  Qed.

  Lemma paren_shape : shape_text dims ("("%char :: shape).
  Proof.
    assert (SP : separator "(") by (repeat split; try discriminate; unfold a_digit; change (nat_of_ascii "(") with 40; lia).
    destruct Hshape as [s HS|d ds sep nm s HS Hd HN HF HT].
    - constructor. constructor; [exact SP|exact HS].
    - change ("("%char :: sep ++ nm ++ s) with (("("%char :: sep) ++ nm ++ s). constructor; try assumption. constructor; assumption.
  Qed.

  Lemma parse_header_ok : length dims < 8 -> Forall (fun d => (d < 9223372036854775808)%Z) dims ->
    parse_header (text ++ [nul]) = Ok (e, t, es, fo, dims).
  Proof.
    intros Hdims Hsmall. rewrite parse_header_gen. rewrite (scan_shape_ok _ _ paren_shape).
    - reflexivity.
    - unfold text, npy_dict. rewrite !app_length. cbn [length]. lia.
    - exact Hdims.
    - exact Hsmall.
  Qed.

  Lemma text_len : length ("("%char :: shape) < S (length (text ++ [nul])).
  Proof. unfold text, npy_dict. rewrite !app_length. cbn [length]. lia. Qed.
End Dict.
