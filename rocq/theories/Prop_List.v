(** Prop_List.v -- C45, C46 and C50: lists of arrays and .npz archives. *)
From Coq Require Import ZArith Bool String Ascii List Permutation Lia.
From Verif Require Import Base BaseProofs Logger SpecLog LoggerProofs Npy SpecNpy NpyProofs NpyProofs2 NpyList SpecList ListProofs Prop_Npy.
Import ListNotations.
Local Open Scope nat_scope.

(** ** C50: lists *)

(** a and d are the blocks of an array m that is not in the list *)
Definition free_array (h : heap) (cs : list cell) (a d : nat) (m : npy) : Prop :=
  holds h a (BArr m d) /\ live h d /\ a <> d /\ ~ In a (blocks_of cs) /\ ~ In d (blocks_of cs).

(** append puts the array at the end, prepend at the front; blocks that do not belong to the list are not touched *)
Theorem list_append_last (alloc : Z -> bool) h p cs a d m name :
  is_list h p cs -> free_array h cs a d m -> plain name -> length name <= 80 ->
  alloc 24%Z = true -> alloc (Z.of_nat (length name + 1)) = true ->
  exists h' p' c, list_append alloc h p (Some a) name [] = Ok (h', p')
    /\ is_list h' p' (cs ++ [c]) /\ c_arr c = a /\ c_data c = d /\ c_m c = m /\ c_str c = name
    /\ (forall x, x < length h -> ~ In x (map c_node cs) -> nth_error h' x = nth_error h x).
Proof.
  intros HL (H1 & H2 & H3 & H4 & H5) HP L80 A1 A2.
  destruct (append_list alloc h p cs a d m name name [] HL H1 H2 H3 H4 H5 (vformat_plain _ HP) L80 A1 A2) as (h' & p' & E & IL & _ & O).
  exists h', p', (new_cell h a d m name). repeat split; try exact E; try exact O; try apply IL.
Qed.
Print Assumptions list_append_last.

Theorem list_prepend_first (alloc : Z -> bool) h p cs a d m name :
  is_list h p cs -> free_array h cs a d m -> plain name -> length name <= 80 ->
  alloc 24%Z = true -> alloc (Z.of_nat (length name + 1)) = true ->
  exists h' p' c, list_prepend alloc h p (Some a) name [] = Ok (h', p')
    /\ is_list h' p' (c :: cs) /\ c_arr c = a /\ c_data c = d /\ c_m c = m /\ c_str c = name
    /\ (forall x, x < length h -> nth_error h' x = nth_error h x).
Proof.
  intros HL (H1 & H2 & H3 & H4 & H5) HP L80 A1 A2.
  destruct (prepend_list alloc h p cs a d m name name [] HL H1 H2 H3 H4 H5 (vformat_plain _ HP) L80 A1 A2) as (h' & E & IL & _ & O).
  exists h', (Some (length h)), (new_cell h a d m name). repeat split; try exact E; try exact O; try apply IL.
Qed.
Print Assumptions list_prepend_first.

(** without memory for the element the list stays as it is *)
Theorem list_extend_no_memory (alloc : Z -> bool) h p a name args : alloc 24%Z = false ->
  list_append alloc h p a name args = Ok (h, p) /\ list_prepend alloc h p a name args = Ok (h, p).
Proof. intros A. unfold list_append, list_prepend, list_extend. rewrite A. split; reflexivity. Qed.
Print Assumptions list_extend_no_memory.

(** length counts the elements (a list fits into the address space) *)
Theorem list_length_counts h p cs : is_list h p cs -> (Z.of_nat (length cs) < 18446744073709551616)%Z ->
  list_length h p = Ok (Z.of_nat (length cs)).
Proof.
  intros HL HB. pose proof (is_list_len _ _ _ HL). destruct HL as (HC & _). unfold list_length.
  rewrite (length_chain _ _ _ HC); [reflexivity|lia|lia|exact HB].
Qed.
Print Assumptions list_length_counts.

(** freeing a list frees every block of it, each once (freeing a dead block is a fault), and no other block *)
Theorem list_free_all h p cs : is_list h p cs ->
  exists h', list_free (S (length h)) h p = Ok h'
    /\ (forall c, In c cs -> dead h' (c_node c) /\ dead h' (c_arr c) /\ dead h' (c_data c) /\ dead h' (c_name c))
    /\ (forall x, ~ In x (blocks_of cs) -> nth_error h' x = nth_error h x).
Proof.
  intros HL. pose proof (is_list_len _ _ _ HL). destruct (free_chain cs h p (S (length h)) HL ltac:(lia)) as (h' & E & _ & D & O).
  exists h'. split; [exact E|]. split; [|exact O]. intros c Hc.
  assert (IN : forall x, In x (cell_blocks c) -> In x (blocks_of cs)).
  { intros x Hx. unfold blocks_of. apply in_flat_map. exists c. split; assumption. }
  repeat split; apply D; apply IN; cbn; tauto.
Qed.
Print Assumptions list_free_all.

(** a history of appends and prepends, starting from the empty list *)
Record op := mk_op { op_append : bool; op_arr : nat; op_data : nat; op_m : npy; op_name : list ascii }.
Fixpoint run_ops (alloc : Z -> bool) (ops : list op) (h : heap) (p : ptr) : res (heap * ptr) :=
  match ops with
  | [] => Ok (h, p)
  | o :: ops => rbind (if op_append o then list_append alloc h p (Some (op_arr o)) (op_name o) []
                       else list_prepend alloc h p (Some (op_arr o)) (op_name o) [])
                  (fun hp => run_ops alloc ops (fst hp) (snd hp))
  end.
(** the sequence of arrays and names that it builds *)
Definition built (ops : list op) (l : list (npy * list ascii)) : list (npy * list ascii) :=
  fold_left (fun l o => if op_append o then l ++ [(op_m o, op_name o)] else (op_m o, op_name o) :: l) ops l.
Definition op_blocks (o : op) : list nat := [op_arr o; op_data o].

Lemma run_ops_ok (alloc : Z -> bool) ops : alloc 24%Z = true -> forall h p cs,
  is_list h p cs ->
  Forall (fun o => holds h (op_arr o) (BArr (op_m o) (op_data o)) /\ live h (op_data o)
                   /\ plain (op_name o) /\ length (op_name o) <= 80 /\ alloc (Z.of_nat (length (op_name o) + 1)) = true) ops ->
  NoDup (flat_map op_blocks ops) ->
  (forall x, In x (flat_map op_blocks ops) -> ~ In x (blocks_of cs)) ->
  exists h' p' cs', run_ops alloc ops h p = Ok (h', p') /\ is_list h' p' cs'
    /\ map (fun c => (c_m c, c_str c)) cs' = built ops (map (fun c => (c_m c, c_str c)) cs).
Proof.
  intros A1. induction ops as [|o ops IH]; intros h p cs HL HF HN HD; cbn [run_ops].
  - exists h, p, cs. split; [reflexivity|]. split; [exact HL|reflexivity].
  - pose proof (Forall_inv HF) as (Ha & Hd & HP & L80 & A2). pose proof (Forall_inv_tail HF) as HF'.
    cbn [flat_map op_blocks app] in HN, HD. inversion HN as [|? ? N1 HN1]; subst. inversion HN1 as [|? ? N2 HN2]; subst.
    assert (FA : free_array h cs (op_arr o) (op_data o) (op_m o)).
    { split; [exact Ha|]. split; [exact Hd|]. split; [intros E; apply N1; left; congruence|].
      split; [apply HD; left; reflexivity|apply HD; right; left; reflexivity]. }
    destruct HL as (HC & HNb) eqn:EHL. clear EHL. pose proof (chain_lt _ _ _ HC) as LTc.
    assert (NIN : forall x, In x (flat_map op_blocks ops) -> x < length h).
    { intros x Hx. apply in_flat_map in Hx. destruct Hx as (o' & Io & Hx). rewrite Forall_forall in HF'.
      destruct (HF' o' Io) as (Q1 & Q2 & _). destruct Hx as [<-|[<-|[]]]; [eapply holds_lt|eapply live_lt]; eassumption. }
    assert (NEW : forall h' p' cs1, is_list h' p' cs1 ->
       (forall x, x < length h -> ~ In x (map c_node cs) -> nth_error h' x = nth_error h x) ->
       (forall x, In x (blocks_of cs1) -> In x (blocks_of cs) \/ x = op_arr o \/ x = op_data o \/ length h <= x) ->
       exists h'' p'' cs', run_ops alloc ops h' p' = Ok (h'', p'') /\ is_list h'' p'' cs'
         /\ map (fun c => (c_m c, c_str c)) cs' = built ops (map (fun c => (c_m c, c_str c)) cs1)).
    { intros h' p' cs1 IL O IB. apply IH; [exact IL| |exact HN2|].
      - apply Forall_forall. intros o' Io. rewrite Forall_forall in HF'. destruct (HF' o' Io) as (Q1 & Q2 & Q3 & Q4 & Q5).
        assert (NN : forall x, In x (op_blocks o') -> nth_error h' x = nth_error h x).
        { intros x Hx. assert (IX : In x (flat_map op_blocks ops)) by (apply in_flat_map; exists o'; split; assumption).
          apply O; [apply NIN; exact IX|]. intros Q. apply (HD x); [right; right; exact IX|].
          apply in_map_iff in Q. destruct Q as (c & <- & Ic). unfold blocks_of. apply in_flat_map. exists c. split; [exact Ic|left; reflexivity]. }
        unfold live, holds in *. rewrite !NN by (cbn; tauto). repeat split; assumption.
      - intros x Hx Q. destruct (IB x Q) as [Q1|[-> |[-> |Q1]]].
        + apply (HD x); [right; right; exact Hx|exact Q1].
        + apply N1. right. exact Hx.
        + apply N2. exact Hx.
        + pose proof (NIN x Hx). lia. }
    destruct (op_append o) eqn:EO.
    + destruct (list_append_last alloc h p cs _ _ _ _ (conj HC HNb) FA HP L80 A1 A2) as (h' & p' & c & E & IL & C1 & C2 & C3 & C4 & O).
      destruct (append_list alloc h p cs _ _ _ (op_name o) (op_name o) [] (conj HC HNb) Ha Hd (proj1 (proj2 (proj2 FA))) (proj1 (proj2 (proj2 (proj2 FA)))) (proj2 (proj2 (proj2 (proj2 FA)))) (vformat_plain _ HP) L80 A1 A2)
        as (h2 & p2 & E2 & IL2 & _ & O2).
      rewrite E2. cbn [rbind fst snd].
      destruct (NEW h2 p2 _ IL2 O2) as (h3 & p3 & cs3 & E3 & IL3 & B3).
      { intros x Hx. rewrite blocks_app in Hx. apply in_app_or in Hx. destruct Hx as [Hx|Hx]; [left; exact Hx|].
        unfold blocks_of, new_cell in Hx. cbn in Hx. intuition lia. }
      exists h3, p3, cs3. split; [exact E3|]. split; [exact IL3|]. rewrite B3. unfold built. cbn [fold_left]. rewrite EO.
      rewrite map_app. reflexivity.
    + destruct (prepend_list alloc h p cs _ _ _ (op_name o) (op_name o) [] (conj HC HNb) Ha Hd (proj1 (proj2 (proj2 FA))) (proj1 (proj2 (proj2 (proj2 FA)))) (proj2 (proj2 (proj2 (proj2 FA)))) (vformat_plain _ HP) L80 A1 A2)
        as (h2 & E2 & IL2 & _ & O2).
      rewrite E2. cbn [rbind fst snd].
      destruct (NEW h2 _ _ IL2 (fun x Hx _ => O2 x Hx)) as (h3 & p3 & cs3 & E3 & IL3 & B3).
      { intros x Hx. unfold blocks_of, new_cell in Hx. cbn [flat_map] in Hx. apply in_app_or in Hx. destruct Hx as [Hx|Hx]; [cbn in Hx; intuition lia|left; exact Hx]. }
      exists h3, p3, cs3. split; [exact E3|]. split; [exact IL3|]. rewrite B3. unfold built. cbn [fold_left]. rewrite EO. reflexivity.
Qed.

(** any history of appends and prepends of distinct arrays gives the sequence that was built, and freeing it frees
    every block of it once *)
Theorem list_histories (alloc : Z -> bool) ops h :
  alloc 24%Z = true ->
  Forall (fun o => holds h (op_arr o) (BArr (op_m o) (op_data o)) /\ live h (op_data o)
                   /\ plain (op_name o) /\ length (op_name o) <= 80 /\ alloc (Z.of_nat (length (op_name o) + 1)) = true) ops ->
  NoDup (flat_map op_blocks ops) ->
  exists h' p' cs, run_ops alloc ops h None = Ok (h', p') /\ is_list h' p' cs
    /\ map (fun c => (c_m c, c_str c)) cs = built ops []
    /\ exists h'', list_free (S (length h')) h' p' = Ok h''
         /\ Forall (fun c => dead h'' (c_node c) /\ dead h'' (c_arr c) /\ dead h'' (c_data c) /\ dead h'' (c_name c)) cs.
Proof.
  intros A1 HF HN.
  destruct (run_ops_ok alloc ops A1 h None []) as (h' & p' & cs & E & IL & B); try assumption.
  - split; constructor.
  - intros x _ [].
  - exists h', p', cs. split; [exact E|]. split; [exact IL|]. split; [exact B|].
    destruct (list_free_all _ _ _ IL) as (h'' & E2 & D & _). exists h''. split; [exact E2|]. apply Forall_forall. exact D.
Qed.
Print Assumptions list_histories.

(** three arrays; the second is prepended *)
Definition ex_array2 : npy := mk_npy (txt "abcdefgh") [2; 0; 0; 0; 0; 0; 0; 0]%Z 1 "<" "f" 4 false false.
Definition ex_heap : heap :=
  [Some BData; Some (BArr ex_array 0); Some BData; Some (BArr ex_array2 2); Some BData; Some (BArr ex_array 4)].
Definition ex_ops : list op :=
  [mk_op true 1 0 ex_array (txt "b"); mk_op false 3 2 ex_array2 (txt "a"); mk_op true 5 4 ex_array (txt "c")].
Example list_histories_ex :
  Forall (fun o => holds ex_heap (op_arr o) (BArr (op_m o) (op_data o)) /\ live ex_heap (op_data o)
                   /\ plain (op_name o) /\ length (op_name o) <= 80 /\ true = true) ex_ops
  /\ NoDup (flat_map op_blocks ex_ops)
  /\ built ex_ops [] = [(ex_array2, txt "a"); (ex_array, txt "b"); (ex_array, txt "c")].
Proof.
  split; [|split; [|reflexivity]].
  - repeat constructor; try reflexivity; try (exists BData; reflexivity); try (cbn; lia); intros Q; cbn in Q; destruct Q as [Q|[]]; discriminate.
  - cbn. repeat constructor; cbn; lia.
Qed.

(** the same array twice in a list: freeing it is undefined *)
Example list_same_array_twice :
  rbind (run_ops (fun _ => true) [mk_op true 1 0 ex_array (txt "b"); mk_op true 1 0 ex_array (txt "c")] ex_heap None)
        (fun hp => list_free (S (length (fst hp))) (fst hp) (snd hp)) = Fault BadPointer.
Proof. vm_compute. reflexivity. Qed.

(** ** C45: archives *)

(** memory for everything that is needed *)
Definition enough (alloc : Z -> bool) (cs : list cell) : Prop :=
  alloc 104%Z = true /\ alloc 24%Z = true
  /\ Forall (fun c => alloc (Z.of_nat (128 + length (np_data (c_m c)))) = true
                      /\ alloc (Z.of_nat (length (c_str c) + 1)) = true /\ alloc (Z.of_nat (length (np_data (c_m c)))) = true) cs.

Lemma npy_bytes_len m : storable m -> length (npy_bytes m) = 128 + length (np_data m).
Proof. intros HS. destruct (save_eq m HS) as (_ & E). unfold npy_bytes. rewrite npy_file_len, E. lia. Qed.

Lemma npz_core (alloc : Z -> bool) (utf8 : bytes -> bool) h p cs comp :
  is_list h p cs -> cs <> [] -> Forall (fun c => storable (c_m c)) cs ->
  Forall (fun c => plain (c_str c) /\ length (c_str c) <= 80 /\ utf8 (c_str c) = true) cs -> NoDup (names_of cs) ->
  enough alloc cs ->
  exists ar, list_save_compressed alloc utf8 h p comp = Ok (h, Some ar, length cs)
    /\ map mb_name ar = names_of cs /\ length ar = length cs
    /\ forall h0, exists h' p' cs', list_load alloc h0 ar = Ok (h', p') /\ is_list h' p' cs'
         /\ names_of cs' = names_of cs /\ arrays_of cs' = map reloaded (arrays_of cs)
         /\ (forall x, x < length h0 -> nth_error h' x = nth_error h0 x)
         /\ (forall x, In x (blocks_of cs') <-> length h0 <= x < length h').
Proof.
  intros HL HNE HS HNM HND (A1 & A2 & HA). pose proof (is_list_len _ _ _ HL) as LL. pose proof HL as (HC & _).
  exists (map (fun c => mk_member (c_str c) (npy_bytes (c_m c)) cm_default) cs).
  split.
  { unfold list_save_compressed. destruct p as [q|]; [|inversion HC; congruence].
    rewrite (save_chain alloc utf8 h (Some q) cs comp HC HS).
    - cbn [rbind]. rewrite add_all; [reflexivity| |exact HND]. eapply Forall_impl; [|exact HNM]. cbn. tauto.
    - rewrite Forall_forall in *. intros c Hc. rewrite npy_bytes_len by (apply HS; exact Hc). apply HA. exact Hc.
    - lia.
    - cbn. lia. }
  split; [unfold names_of; rewrite map_map; reflexivity|]. split; [apply map_length|]. intros h0.
  destruct (load_chain alloc (map (fun c => (c_str c, c_m c)) cs) h0 None []) as (h' & p' & cs' & E & IL & NA & AR & O & _ & B).
  - split; constructor.
  - apply Forall_map. rewrite Forall_forall in *. intros c Hc. cbn [fst snd].
    destruct (HNM c Hc) as (Q1 & Q2 & _). destruct (HA c Hc) as (_ & Q3 & Q4). repeat split; try assumption; apply HS; exact Hc.
  - exact A1.
  - exact A2.
  - exists h', p', cs'. rewrite map_map in E. cbn [fst snd] in E. split; [exact E|]. split; [exact IL|].
    split; [rewrite NA, map_map; reflexivity|]. split.
    + rewrite AR, map_map. cbn [snd]. unfold arrays_of. rewrite map_map. reflexivity.
    + split; [|exact B]. intros x Hx. apply O; [exact Hx|]. intros [].
Qed.

(** for distinct UTF-8 names without % signs of at most 80 characters, and a list that is not empty *)
Theorem npz_round_trip_partial (alloc : Z -> bool) (utf8 : bytes -> bool) h p cs comp :
  is_list h p cs -> cs <> [] -> Forall (fun c => storable (c_m c)) cs ->
  Forall (fun c => plain (c_str c) /\ length (c_str c) <= 80 /\ utf8 (c_str c) = true) cs -> NoDup (names_of cs) ->
  enough alloc cs ->
  exists ar, list_save_compressed alloc utf8 h p comp = Ok (h, Some ar, length cs)
    /\ map mb_name ar = names_of cs /\ length ar = length cs
    /\ forall h0, exists h' p' cs', list_load alloc h0 ar = Ok (h', p') /\ is_list h' p' cs'
         /\ names_of cs' = names_of cs /\ Forall2 same_array (arrays_of cs) (arrays_of cs')
         /\ (forall x, x < length h0 -> nth_error h' x = nth_error h0 x)
         /\ (forall x, In x (blocks_of cs') <-> length h0 <= x < length h').
Proof.
  intros HL HNE HS HNM HND EN. destruct (npz_core alloc utf8 h p cs comp HL HNE HS HNM HND EN) as (ar & E1 & E2 & E3 & LD).
  exists ar. repeat (split; [assumption|]). intros h0. destruct (LD h0) as (h' & p' & cs' & L1 & L2 & L3 & L4 & L5 & L6).
  exists h', p', cs'. split; [exact L1|]. split; [exact L2|]. split; [exact L3|]. split; [|split; assumption].
  rewrite L4. unfold arrays_of. clear - HS. induction HS as [|c cs Hc HS IH]; constructor; [apply same_reloaded; exact Hc|exact IH].
Qed.
Print Assumptions npz_round_trip_partial.

Definition ex_list_heap : heap := ex_heap ++
  [Some (BNode (Some 1) (Some 7) (Some 8)); Some (BName (txt "weight_0")); Some (BNode (Some 3) (Some 9) None); Some (BName (txt "bias_0"))].
Definition ex_cells : list cell := [mk_cell 6 1 0 7 ex_array (txt "weight_0"); mk_cell 8 3 2 9 ex_array2 (txt "bias_0")].
Lemma ex_is_list : is_list ex_list_heap (Some 6) ex_cells.
Proof.
  split.
  - apply (chain_cons ex_list_heap (mk_cell 6 1 0 7 ex_array (txt "weight_0")) (Some 8)); try reflexivity; try (exists BData; reflexivity).
    apply (chain_cons ex_list_heap (mk_cell 8 3 2 9 ex_array2 (txt "bias_0")) None); try reflexivity; try (exists BData; reflexivity). constructor.
  - cbn. repeat constructor; cbn; lia.
Qed.
Example npz_round_trip_ex : is_list ex_list_heap (Some 6) ex_cells
  /\ Forall (fun c => storable (c_m c)) ex_cells
  /\ Forall (fun c => plain (c_str c) /\ length (c_str c) <= 80) ex_cells /\ NoDup (names_of ex_cells).
Proof.
  split; [exact ex_is_list|]. split.
  { repeat constructor; cbn [c_m]; try exact ex_storable; vm_compute; try discriminate; try reflexivity; try lia. }
  split.
  - repeat constructor; cbn; try lia; intros Q; repeat (destruct Q as [Q|Q]; [discriminate|]); destruct Q.
  - repeat constructor; cbn; [intros [Q|[]]; discriminate|tauto].
Qed.

(** REFUTED: two arrays of the same name: 2 is returned, the archive has one member *)
Theorem npz_duplicate_refuted : exists h p cs ar,
  is_list h p cs /\ Forall (fun c => storable (c_m c)) cs
  /\ list_save (fun _ => true) (fun _ => true) h p = Ok (h, Some ar, length cs) /\ length cs = 2 /\ length ar = 1.
Proof.
  set (hh := ex_heap ++ [Some (BNode (Some 1) (Some 7) (Some 8)); Some (BName (txt "w")); Some (BNode (Some 3) (Some 9) None); Some (BName (txt "w"))]).
  set (cc := [mk_cell 6 1 0 7 ex_array (txt "w"); mk_cell 8 3 2 9 ex_array2 (txt "w")]).
  exists hh, (Some 6), cc. eexists. split.
  { split.
    - apply (chain_cons hh (mk_cell 6 1 0 7 ex_array (txt "w")) (Some 8)); try reflexivity; try (exists BData; reflexivity).
      apply (chain_cons hh (mk_cell 8 3 2 9 ex_array2 (txt "w")) None); try reflexivity; try (exists BData; reflexivity). constructor.
    - cbn. repeat constructor; cbn; lia. }
  split. { repeat constructor; cbn [c_m]; try exact ex_storable; vm_compute; try discriminate; try reflexivity; try lia. }
  split; [vm_compute; reflexivity|]. split; reflexivity.
Qed.
Print Assumptions npz_duplicate_refuted.

(** REFUTED: the name of a member is used as a printf format when it is loaded *)
Theorem npz_format_refuted : exists h p cs ar,
  is_list h p cs /\ Forall (fun c => storable (c_m c)) cs /\ NoDup (names_of cs)
  /\ list_save (fun _ => true) (fun _ => true) h p = Ok (h, Some ar, length cs)
  /\ forall h0, list_load (fun _ => true) h0 ar = Fault Uninit.
Proof.
  set (hh := ex_heap ++ [Some (BNode (Some 1) (Some 7) None); Some (BName (txt "90%s"))]).
  set (cc := [mk_cell 6 1 0 7 ex_array (txt "90%s")]).
  exists hh, (Some 6), cc. eexists. split.
  { split.
    - apply (chain_cons hh (mk_cell 6 1 0 7 ex_array (txt "90%s")) None); try reflexivity; try (exists BData; reflexivity). constructor.
    - cbn. repeat constructor; cbn; lia. }
  split. { repeat constructor; cbn [c_m]; try exact ex_storable; vm_compute; try discriminate; try reflexivity; try lia. }
  split; [repeat constructor; cbn; tauto|].
  split; [vm_compute; reflexivity|]. intros h0. vm_compute. reflexivity.
Qed.
Print Assumptions npz_format_refuted.

(** and a member written by another program under a name of more than 80 characters stops the program *)
Theorem npz_long_name (alloc : Z -> bool) h0 name m rest method :
  storable m -> plain name -> 80 < length name -> alloc 104%Z = true -> alloc 24%Z = true ->
  alloc (Z.of_nat (length (np_data m))) = true ->
  list_load alloc h0 (mk_member name (npy_bytes m) method :: rest) = Fault AssertFailed.
Proof.
  intros HS HP HL A1 A2 A3. unfold list_load. cbn [load_loop mb_content mb_name]. rewrite (read_storable alloc m HS A1 A3).
  cbn [rbind h_new]. unfold list_append, list_extend. rewrite A2. cbn [negb h_new].
  unfold va_args_filename. rewrite (vformat_plain _ HP). cbn [rbind].
  destruct (Nat.ltb_spec max_filename (length name)) as [_|Q]; [reflexivity|unfold max_filename in Q; lia].
Qed.
Print Assumptions npz_long_name.
Example npz_long_name_ex : storable ex_array /\ plain (repeat "a"%char 81).
Proof. split; [exact ex_storable|]. intros Q. apply repeat_spec in Q. discriminate. Qed.

(** saving the empty list leaves the file as it was *)
Theorem npz_empty_untouched (alloc : Z -> bool) (utf8 : bytes -> bool) h comp :
  list_save_compressed alloc utf8 h None comp = Ok (h, None, 0).
Proof. reflexivity. Qed.
Print Assumptions npz_empty_untouched.

(** ** C46: compression *)
Lemma set_method_default ar i comp ar' : length ar <= i -> zip_set_compression ar i comp = Some ar' -> False.
Proof.
  intros HL. unfold zip_set_compression. destruct (nth_error ar i) eqn:E; [|discriminate].
  assert (i < length ar) by (apply nth_error_Some; congruence). lia.
Qed.
Lemma save_loop_default (alloc : Z -> bool) (utf8 : bytes -> bool) comp fuel : forall h p ar n h' ar' n',
  length ar <= n -> Forall (fun m => mb_method m = cm_default) ar ->
  save_loop alloc utf8 fuel h p comp ar n = Ok (h', ar', n') -> Forall (fun m => mb_method m = cm_default) ar'.
Proof.
  induction fuel as [|f IH]; intros h p ar n h' ar' n' HL HM E; [discriminate|]. cbn [save_loop] in E.
  destruct p as [q|]; [|congruence].
  destruct (zip_set_compression ar n comp) eqn:EZ; [exfalso; exact (set_method_default _ _ _ _ HL EZ)|].
  destruct (get_node h q) as [[[arr name] next]|]; [|discriminate]. cbn [rbind] in E.
  match type of E with rbind ?x _ = _ => destruct x as [[h2 str]|]; [|discriminate] end. cbn [rbind] in E.
  destruct arr as [a|]; [|discriminate]. destruct (get_arr h2 a) as [md|]; [|discriminate]. cbn [rbind] in E.
  destruct (npy_get_header (fst md)) as [hd|]; [|discriminate]. cbn [rbind] in E.
  destruct (npy_datasize (fst md)) as [sz|]; [|discriminate]. cbn [rbind] in E.
  destruct (negb (alloc _)); [discriminate|]. destruct (negb (_ <=? _)%Z); [discriminate|].
  eapply IH; [| |exact E].
  - match goal with |- length (match ?x with _ => _ end) <= _ => destruct x as [ar2|] eqn:EA end; [|lia].
    unfold zip_file_add in EA. destruct (_ || _); [discriminate|]. inversion EA; subst. rewrite app_length. cbn. lia.
  - match goal with |- Forall _ (match ?x with _ => _ end) => destruct x as [ar2|] eqn:EA end; [|exact HM].
    unfold zip_file_add in EA. destruct (_ || _); [discriminate|]. inversion EA; subst. apply Forall_app.
    split; [exact HM|]. constructor; [reflexivity|constructor].
Qed.

(** REFUTED: whatever method is asked for, every member has the default method (-1, deflate) *)
Theorem compression_ignored (alloc : Z -> bool) (utf8 : bytes -> bool) h p comp h' ar n :
  list_save_compressed alloc utf8 h p comp = Ok (h', Some ar, n) -> Forall (fun m => mb_method m = (-1)%Z) ar.
Proof.
  intros E. unfold list_save_compressed in E. destruct p as [q|]; [|discriminate].
  destruct (save_loop alloc utf8 (S (length h)) h (Some q) comp [] 0) as [[[h2 ar2] n2]|] eqn:ES; [|discriminate].
  cbn [rbind] in E. inversion E; subst.
  eapply (save_loop_default alloc utf8 comp _ h (Some q) [] 0); [cbn; lia|constructor|exact ES].
Qed.
Print Assumptions compression_ignored.
Theorem compression_refuted : exists h p cs ar,
  is_list h p cs /\ Forall (fun c => storable (c_m c)) cs /\ NoDup (names_of cs)
  /\ list_save (fun _ => true) (fun _ => true) h p = Ok (h, Some ar, length cs)
  /\ ~ Forall (fun m => mb_method m = 0%Z) ar.
Proof.
  exists ex_list_heap, (Some 6), ex_cells. eexists. destruct npz_round_trip_ex as (E1 & E2 & _ & E4).
  split; [exact E1|]. split; [exact E2|]. split; [exact E4|]. split; [vm_compute; reflexivity|].
  intros Q. pose proof (Forall_inv Q) as Q1. vm_compute in Q1. discriminate.
Qed.
Print Assumptions compression_refuted.
