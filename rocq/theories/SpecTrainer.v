(** SpecTrainer.v -- the command line of the training program and the epochs of a run, as a user sees them (no reference to the
    model of the program). *)
From Coq Require Import ZArith Bool String Ascii List.
From Verif Require Import Base OpsB32 SpecLog Npy SpecNpy NpyList SpecList Registry SpecRegistry Create SpecCreate SpecNetFile OptCreate.
Import ListNotations.
Local Open Scope nat_scope.

Definition word := list ascii.

(** the options: a letter and a long name *)
Definition options : list (ascii * string) :=
  [ ("t"%char, "trainset"%string); ("v"%char, "verificationset"%string); ("n"%char, "neuralnet"%string); ("l"%char, "loss"%string); ("m"%char, "metrics"%string); ("o"%char, "optimizer"%string);
    ("a"%char, "learning-rate"%string); ("b"%char, "batch-size"%string); ("q"%char, "log"%string); ("e"%char, "early-stopping"%string); ("s"%char, "model-checkpoint"%string) ].
(** the letters that can be written with one dash; m is not among them *)
Definition letters : word := txt "tvnloabqes".

(** p is the name of option c, or the beginning of this name and of no other *)
Definition names (p : word) (c : ascii) : Prop :=
  (exists n r, In (c, n) options /\ txt n = p ++ r) /\ forall c' n r, In (c', n) options -> txt n = p ++ r -> c' = c.

(** the four ways to give option c the value v *)
Inductive writes : ascii -> word -> list word -> Prop :=
| writes_apart c v : In c letters -> writes c v [["-"%char; c]; v]
| writes_joined c x v : In c letters -> writes c (x :: v) ["-"%char :: c :: x :: v]
| writes_long c p v : names p c -> writes c v [txt "--" ++ p; v]
| writes_equals c p v : names p c -> writes c v [txt "--" ++ p ++ "="%char :: v].

(** the words of a command line up to [tail]: options with values, and words that are no options *)
Inductive command_line (tail : list word) : list (ascii * word) -> list word -> Prop :=
| line_end : command_line tail [] tail
| line_option c v ws ps l : writes c v ws -> command_line tail ps l -> command_line tail ((c, v) :: ps) (ws ++ l)
| line_other w ps l : (forall s, w <> "-"%char :: s) \/ w = ["-"%char] -> command_line tail ps l -> command_line tail ps (w :: l).
(** the end of the options *)
Definition finished (tail : list word) : Prop := tail = [] \/ exists rest, tail = txt "--" :: rest.
(** a word that is not accepted: an unknown letter, a name that is unknown or ambiguous, or an option without its value *)
Inductive rejected : list word -> Prop :=
| rejected_letter c s rest : ~ In c letters -> c <> "-"%char -> rejected (("-"%char :: c :: s) :: rest)
| rejected_name p s rest : (forall c, ~ names p c) -> ~ In "="%char p -> (p <> [] /\ s = [] \/ exists v, s = "="%char :: v) ->
    rejected ((txt "--" ++ p ++ s) :: rest)
| rejected_no_value c : In c letters -> rejected [["-"%char; c]]
| rejected_no_value_long c p : names p c -> rejected [txt "--" ++ p].

(** the last value given for an option *)
Fixpoint last_value (c : ascii) (ps : list (ascii * word)) : option word :=
  match ps with
  | [] => None
  | (d, v) :: r => match last_value c r with Some w => Some w | None => if ascii_dec d c then Some v else None end
  end.

Definition is_int (z : Z) : Prop := (-2147483648 <= z <= 2147483647)%Z.
(** three numbers with commas *)
Definition triple (v : word) (a b c : Z) : Prop :=
  exists x y z, v = x ++ ","%char :: y ++ ","%char :: z /\ numeral a x /\ numeral b y /\ numeral c z /\ is_int a /\ is_int b /\ is_int c.
(** the values that make sense: numbers where numbers are expected *)
Definition sensible (p : ascii * word) : Prop :=
  (fst p = "b"%char -> exists z, numeral z (snd p) /\ is_int z)
  /\ (fst p = "e"%char -> exists a b c, triple (snd p) a b c).

(** consecutive epochs: the state, and the results of both sets *)
Fixpoint follows {A} (epoch : A -> res (A * list b32 * list b32)) (a : A) (es : list (A * list b32 * list b32)) : Prop :=
  match es with
  | [] => True
  | e :: es => epoch a = Ok e /\ follows epoch (fst (fst e)) es
  end.
Definition final {A} (a : A) (es : list (A * list b32 * list b32)) : A := last (map (fun e => fst (fst e)) es) a.

(** a .npy file of any array *)
Definition npy_proper (content : list ascii) : Prop :=
  exists type elem dims data, npy_stores content type elem dims data /\ (0 < elem)%Z /\ length dims <= 7 /\ positive dims
    /\ (Z.of_nat (length data) = product dims * elem)%Z /\ (product dims * elem < 9223372036854775808)%Z.
(** an archive of samples: first an array of 32 bit floats with n rows of a inputs, then one with n rows of b targets; dx, dy: their bytes *)
Definition samples (ar : list member) (n a b : Z) (dx dy : list ascii) : Prop :=
  exists x y rest, ar = x :: y :: rest
    /\ npy_stores (mb_content x) "f" 4 [n; a] dx /\ ((Z.of_nat (length dx) = n * a * 4)%Z /\ (n * a * 4 < 9223372036854775808)%Z)
    /\ npy_stores (mb_content y) "f" 4 [n; b] dy /\ ((Z.of_nat (length dy) = n * b * 4)%Z /\ (n * b * 4 < 9223372036854775808)%Z)
    /\ (1 <= n < 2147483648)%Z /\ Forall (fun m => npy_proper (mb_content m)) rest
    /\ Forall (fun m => plain (mb_name m) /\ length (mb_name m) <= 80) ar.

(** the names of the optimizers; without the option it is adamw *)
Definition optimizer_names (k : okind) : list string :=
  match k with K_SGD => ["SGD"] | K_RMSprop => ["RMSprop"] | K_Adagrad => ["adagrad"] | K_Adam => ["adam"; "adamw"] end%string.
Definition optimizer_is (name : option word) (k : okind) : Prop :=
  match name with Some v => exists s, In s (optimizer_names k) /\ v = txt s | None => k = K_Adam end.

(** a network of layers [ds]: its numbers of inputs and outputs, and of parameters *)
Definition net_inputs (ds : list ndesc) : Z := match ds with d :: _ => d_in d | [] => 0 end.
Definition net_outputs (ds : list ndesc) : Z := last (map d_out ds) 0%Z.
Fixpoint net_parameters (ds : list ndesc) : Z := match ds with d :: ds => ((d_in d + 1) * d_out d + net_parameters ds)%Z | [] => 0%Z end.
(** sizes that can be counted *)
Definition countable (ds : list ndesc) : Prop :=
  Forall (fun d => (d_in d + 1) * d_out d < 2147483648)%Z ds /\ (net_parameters ds < 4294967296)%Z.
(** an archive of the network [ds]: its parameters in order, and somewhere the names of the functions *)
Definition stores_network (lib_opens : list ascii -> bool) (dlsym : list ascii -> list ascii -> option (option nat)) (ar : list member) (ds : list ndesc) : Prop :=
  exists pre nm post names, ar = pre ++ nm :: post /\ Forall (fun m => plain (mb_name m) /\ length (mb_name m) <= 80) ar
    /\ network ds /\ stores_parameters ds (map mb_content (pre ++ post)) /\ stores_names names (mb_content nm)
    /\ length ds <= length names /\ (Z.of_nat (length names) < 2147483648)%Z /\ Forall (short_symbol lib_opens) names
    /\ Forall2 (fun name d => function_for lib_opens dlsym (Some name) (d_f d)) (firstn (length ds) names) ds.
