(** C67: the configuration code build.rs generates. *)
From Coq Require Import Ascii DecimalString DecimalNat.
From Verif Require Import Base BaseLemmas Config ConfigBuild ConfigText Sample PropTables.
Local Open Scope string_scope.

(** * Specification *)
(** The lines of a text; [cur] is the beginning of the current one. *)
Definition newline : ascii := "010".
Fixpoint lines_of (cur s : string) : list string :=
  match s with
  | EmptyString => [cur]
  | String c r => if (c =? newline)%char then cur :: lines_of "" r else lines_of (cur ++ String c "") r
  end.
(** The lines which are Rust code: neither empty nor a comment. *)
Definition is_code (l : string) : bool := negb ((l =? "") || prefix "//" l).
Definition code_lines (text : string) : list string := filter is_code (lines_of "" text).
(** The value of a decimal literal. *)
Definition digit_value (c : ascii) : option N :=
  let n := N_of_ascii c in if (48 <=? n)%N && (n <=? 57)%N then Some (n - 48)%N else None.
Fixpoint decimal_from (acc : N) (s : string) : option N :=
  match s with
  | EmptyString => Some acc
  | String c r => match digit_value c with Some d => decimal_from (10 * acc + d)%N r | None => None end
  end.
Definition decimal (s : string) (n : nat) : Prop := s <> "" /\ decimal_from 0 s = Some (N.of_nat n).
(** A Rust array of string literals that need no escapes. *)
Definition array_of (names : list string) : string := "&[" ++ String.concat ", " (map (fun n => """" ++ n ++ """") names) ++ "]".
Definition usize_const (name value : string) : string := "pub const " ++ name ++ ": usize = " ++ value ++ ";".
Definition names_const (name value : string) : string := "pub const " ++ name ++ ": &'static [&'static str] = " ++ value ++ ";".

(** * Proofs *)
Fixpoint no_nl (s : string) : Prop := match s with EmptyString => True | String c r => c <> newline /\ no_nl r end.
Lemma app_nil_str s : s ++ "" = s.
Proof. induction s; cbn; congruence. Qed.
Lemma app_assoc_str a b c : (a ++ b) ++ c = a ++ b ++ c.
Proof. induction a; cbn; congruence. Qed.
Lemma lines_of_app x : forall cur s, no_nl x -> lines_of cur (x ++ s) = lines_of (cur ++ x) s.
Proof.
  induction x as [|c x IH]; intros cur s H; cbn [append lines_of].
  - now rewrite app_nil_str.
  - destruct H as [H1 H2]. destruct (Ascii.eqb_spec c newline); [congruence|]. rewrite IH by auto. f_equal. now rewrite app_assoc_str.
Qed.
Lemma no_nl_app a b : no_nl a -> no_nl b -> no_nl (a ++ b).
Proof. induction a; cbn; tauto. Qed.
Lemma no_nl_uint u : no_nl (NilEmpty.string_of_uint u).
Proof. induction u; cbn; try split; auto; discriminate. Qed.
Lemma usize_no_nl n : no_nl (usize_to_string n).
Proof. unfold usize_to_string, NilZero.string_of_uint. destruct (Nat.to_uint n); try (exact (no_nl_uint _)). cbn. split; [discriminate|exact I]. Qed.
Lemma decimal_uint u : forall acc, decimal_from (N.of_nat acc) (NilEmpty.string_of_uint u) = Some (N.of_nat (Nat.of_uint_acc u acc)).
Proof.
  induction u; intros acc; cbn [NilEmpty.string_of_uint decimal_from Nat.of_uint_acc]; [reflexivity|..];
    (match goal with |- context [digit_value ?c] => let x := eval vm_compute in (digit_value c) in change (digit_value c) with x end; cbn iota;
     rewrite Nat.tail_mul_spec; rewrite <- IHu; f_equal; lia).
Qed.
Lemma decimal_usize n : decimal (usize_to_string n) n.
Proof.
  unfold decimal, usize_to_string. assert (E : NilZero.string_of_uint (Nat.to_uint n) = NilEmpty.string_of_uint (Nat.to_uint n) \/ Nat.to_uint n = Decimal.Nil).
  { unfold NilZero.string_of_uint. destruct (Nat.to_uint n); auto. }
  destruct E as [E|E]; [|exfalso; pose proof (Unsigned.of_to n) as X; rewrite E in X; cbn in X; subst n; discriminate E]. split.
  - unfold NilZero.string_of_uint. destruct (Nat.to_uint n); discriminate.
  - rewrite E, (decimal_uint _ 0). f_equal. f_equal. exact (Unsigned.of_to n).
Qed.

(** Reading concrete text [t] with [cur] pending: the lines completed, and the
    pending beginning of the next one. *)
Fixpoint feed (cur t : string) : list string * string :=
  match t with
  | EmptyString => ([], cur)
  | String c r => if (c =? newline)%char then let '(l, x) := feed "" r in (cur :: l, x) else feed (cur ++ String c "") r
  end.
Lemma feed_ok t : forall cur s, lines_of cur (t ++ s) = (fst (feed cur t) ++ lines_of (snd (feed cur t)) s)%list.
Proof.
  induction t as [|c t IH]; intros cur s; [reflexivity|]. cbn [append lines_of feed]. destruct (c =? newline)%char; [|apply IH].
  rewrite IH. destruct (feed "" t) as [l x]. reflexivity.
Qed.
Definition closing (t : string) : string := ";" ++ String newline t.
Fixpoint filled (l : list (string * string)) : string :=
  match l with [] => "" | (p, t) :: l => p ++ closing t ++ filled l end.
Fixpoint filled_lines (pre : string) (fs : list (list string * string)) (ps : list string) : list string :=
  match fs, ps with
  | (ls, pre') :: fs, p :: ps => ((pre ++ p ++ ";")%string :: ls ++ filled_lines pre' fs ps)%list
  | _, _ => [pre]
  end.
Lemma filled_ok : forall ps ts pre, length ps = length ts -> Forall no_nl ps ->
  lines_of pre (filled (combine ps ts)) = filled_lines pre (map (feed "") ts) ps.
Proof.
  induction ps as [|p ps IH]; intros [|t ts] pre L F; try discriminate; [reflexivity|]. inversion F; subst.
  cbn [combine filled map filled_lines]. destruct (feed "" t) as [ls pre'] eqn:E. rewrite lines_of_app by auto. unfold closing. cbn [append lines_of].
  change (";" =? newline)%char with false. change (newline =? newline)%char with true. cbn iota.
  rewrite feed_ok, E. cbn [fst snd]. rewrite app_assoc_str. f_equal. f_equal. apply IH; auto.
Qed.
Lemma concat_nil_cons a l : String.concat "" (a :: l) = a ++ String.concat "" l.
Proof. destruct l; cbn [String.concat]; [now rewrite app_nil_str|reflexivity]. Qed.
Lemma fill_ok : forall ps ts t0 e, length ps = length ts -> e = "" ->
  String.concat "" (map (fun p => fst p ++ snd p) (combine (t0 :: map closing ts) (ps ++ [e])%list)) = t0 ++ filled (combine ps ts).
Proof.
  induction ps as [|p ps IH]; intros [|t ts] t0 e L ->; try discriminate.
  - cbn. now rewrite app_nil_str.
  - cbn [map app combine filled fst snd]. rewrite concat_nil_cons, app_assoc_str. cbn [fst snd]. do 2 f_equal.
    exact (IH ts (closing t) "" ltac:(cbn in L; lia) eq_refl).
Qed.
Lemma filter_keep x l : is_code x = true -> filter is_code (x :: l) = x :: filter is_code l.
Proof. intros E. cbn [filter]. now rewrite E. Qed.
Lemma filter_skip x l : is_code x = false -> filter is_code (x :: l) = filter is_code l.
Proof. intros E. cbn [filter]. now rewrite E. Qed.
Fixpoint drop (n : nat) (s : string) : string := match n, s with S n, String _ r => drop n r | _, _ => s end.
Definition holes : list string := Eval vm_compute in split_holes "" template.
Definition rests : list string := Eval vm_compute in map (drop 2) (tl holes).
Definition fed : list (list string * string) := Eval vm_compute in map (feed "") rests.
Definition head : string := Eval vm_compute in nth 0 holes "".
Definition head_fed : list string * string := Eval vm_compute in feed "" head.
Lemma holes_eq : split_holes "" template = nth 0 holes "" :: map closing rests. Proof. vm_compute. reflexivity. Qed.
Lemma fed_eq : map (feed "") rests = fed. Proof. vm_compute. reflexivity. Qed.
Lemma head_eq : feed "" head = head_fed. Proof. vm_compute. reflexivity. Qed.
Lemma allowed_plain s : In s allowed_caps \/ s = "ECDSA_ECC_NIST_P256" -> escape_debug s = s /\ no_nl s.
Proof.
  unfold allowed_caps. intros [H| ->]; [repeat (destruct H as [<-|H]; [split; [reflexivity|cbn; repeat split; discriminate]|]); destruct H|].
  split; [reflexivity|cbn; repeat split; discriminate].
Qed.
Lemma plain_array l : (forall s, In s l -> escape_debug s = s /\ no_nl s) -> "&" ++ debug_strings l = array_of l /\ no_nl (debug_strings l).
Proof.
  intros H. assert (E : map debug_string l = map (fun n => """" ++ n ++ """") l).
  { apply map_ext_in. intros s I. unfold debug_string. now rewrite (proj1 (H s I)). }
  unfold debug_strings, array_of. rewrite E. split; [reflexivity|].
  apply no_nl_app; [cbn; split; [discriminate|exact I]|]. apply no_nl_app; [|cbn; split; [discriminate|exact I]].
  clear E. induction l as [|a l IH]; [exact I|]. cbn [map String.concat].
  assert (X : no_nl ("""" ++ a ++ """")) by (apply no_nl_app; [cbn; split; [discriminate|exact I]|apply no_nl_app; [apply H; now left|cbn; split; [discriminate|exact I]]]).
  destruct (map (fun n => """" ++ n ++ """") l) as [|b m]; [exact X|].
  apply no_nl_app; [exact X|]. apply no_nl_app; [cbn; repeat split; discriminate|]. apply IH. intros s I. apply H. now right.
Qed.
Lemma text_lines (p1 p2 p3 p4 p5 p6 p7 p8 p9 p10 p11 p12 : string) : Forall no_nl [p1; p2; p3; p4; p5; p6; p7; p8; p9; p10; p11; p12] ->
  code_lines (String.concat "" (map (fun p => fst p ++ snd p) (combine (split_holes "" template) [p1; p2; p3; p4; p5; p6; p7; p8; p9; p10; p11; p12; ""]))) =
  [usize_const "NUM_SLOTS" p1; usize_const "MAX_CERT_CHAIN_SIZE" p2; usize_const "MAX_CERT_CHAIN_DEPTH" p3; usize_const "TRANSCRIPT_SIZE" p4;
   usize_const "MAX_DIGEST_SIZE" p5; usize_const "MAX_SIGNATURE_SIZE" p6; usize_const "MAX_OPAQUE_ELEMENT_DATA_SIZE" p7;
   usize_const "MAX_OPAQUE_ELEMENTS" p8; usize_const "MAX_MEASUREMENT_BLOCKS" p9; usize_const "MAX_MEASUREMENT_SIZE" p10;
   names_const "CAPABILITIES" ("&" ++ p11); names_const "ALGORITHMS_ASYMMETRIC_SIGNING" ("&" ++ p12)].
Proof.
  intros F.
  set (ps := [p1; p2; p3; p4; p5; p6; p7; p8; p9; p10; p11; p12]).
  assert (E : String.concat "" (map (fun p => fst p ++ snd p) (combine (split_holes "" template) [p1; p2; p3; p4; p5; p6; p7; p8; p9; p10; p11; p12; ""])) =
              nth 0 holes "" ++ filled (combine ps rests)).
  { rewrite holes_eq. exact (fill_ok ps rests (nth 0 holes "") "" eq_refl eq_refl). }
  rewrite E. unfold code_lines. rewrite feed_ok.
  rewrite filled_ok by (reflexivity || assumption). rewrite fed_eq.
  change (nth 0 holes "") with head. rewrite head_eq.
  unfold fed, head_fed, ps. cbn [fst snd filled_lines app].
  repeat match goal with |- context [filter is_code (?x :: ?l)] =>
    let b := eval lazy in (is_code x) in
    match b with true => rewrite (filter_keep x l eq_refl) | false => rewrite (filter_skip x l eq_refl) end end.
  clear. reflexivity.
Qed.

(** * C67 *)
Lemma checked_caps l : check_caps l = Ok tt -> forall s, In s l -> In s allowed_caps.
Proof.
  induction l as [|c r IH]; cbn [check_caps In]; [tauto|]. destruct (existsb (String.eqb c) allowed_caps) eqn:E; [|discriminate].
  intros H s [<-|Hs]; [|auto]. apply existsb_exists in E as (x & Hx & Ex). apply String.eqb_eq in Ex. now subst.
Qed.
Lemma checked_algos l n : max_signature_size l = Ok n -> forall s, In s l -> s = "ECDSA_ECC_NIST_P256".
Proof.
  induction l as [|c r IH]; cbn [max_signature_size]; [intros _ s []|]. destruct (String.eqb_spec c "ECDSA_ECC_NIST_P256"); [|discriminate].
  intros H s [<-|Hs]; auto.
Qed.
(** Whenever build.rs accepts a configuration, the code in the generated file is
    exactly one definition of each constant, with the configured value: numbers
    as decimal literals, name lists as arrays of these names. *)
Theorem C67_generated_code ring oc rand c cfg : gen_config ring oc rand c = Ok cfg ->
  exists text d1 d2 d3 d4 d5 d6 d7 d8 d9 d10, gen_config_text ring c = Ok text /\
    decimal d1 (@NUM_SLOTS cfg) /\ decimal d2 (@MAX_CERT_CHAIN_SIZE cfg) /\ decimal d3 (@MAX_CERT_CHAIN_DEPTH cfg) /\
    decimal d4 (@TRANSCRIPT_SIZE cfg) /\ decimal d5 (@MAX_DIGEST_SIZE cfg) /\ decimal d6 (@MAX_SIGNATURE_SIZE cfg) /\
    decimal d7 (@MAX_OPAQUE_ELEMENT_DATA_SIZE cfg) /\ decimal d8 (@MAX_OPAQUE_ELEMENTS cfg) /\
    decimal d9 (@MAX_MEASUREMENT_BLOCKS cfg) /\ decimal d10 (@MAX_MEASUREMENT_SIZE cfg) /\
    code_lines text =
      [usize_const "NUM_SLOTS" d1; usize_const "MAX_CERT_CHAIN_SIZE" d2; usize_const "MAX_CERT_CHAIN_DEPTH" d3;
       usize_const "TRANSCRIPT_SIZE" d4; usize_const "MAX_DIGEST_SIZE" d5; usize_const "MAX_SIGNATURE_SIZE" d6;
       usize_const "MAX_OPAQUE_ELEMENT_DATA_SIZE" d7; usize_const "MAX_OPAQUE_ELEMENTS" d8;
       usize_const "MAX_MEASUREMENT_BLOCKS" d9; usize_const "MAX_MEASUREMENT_SIZE" d10;
       names_const "CAPABILITIES" (array_of (@CAPABILITIES cfg));
       names_const "ALGORITHMS_ASYMMETRIC_SIGNING" (array_of (@SIGNING_ALGOS cfg))].
Proof.
  unfold gen_config, gen_config_text. destruct (max_signature_size (sc_asymmetric_signing c)) as [n| |] eqn:E1; [|discriminate..].
  cbn [rbind]. destruct (cert_chains_validate c); [|discriminate..]. cbn [rbind].
  destruct (validate_capabilities ring (sc_capabilities c)) as [[]| |] eqn:E2; [|discriminate..]. cbn [rbind]. intros [= <-].
  cbn [NUM_SLOTS MAX_CERT_CHAIN_SIZE MAX_CERT_CHAIN_DEPTH TRANSCRIPT_SIZE MAX_DIGEST_SIZE MAX_SIGNATURE_SIZE MAX_OPAQUE_ELEMENT_DATA_SIZE
       MAX_OPAQUE_ELEMENTS MAX_MEASUREMENT_BLOCKS MAX_MEASUREMENT_SIZE CAPABILITIES SIGNING_ALGOS].
  assert (C1 : forall s, In s (sc_capabilities c) -> escape_debug s = s /\ no_nl s).
  { intros s I. apply allowed_plain. left. unfold validate_capabilities in E2. destruct (negb ring && _); [discriminate|]. eapply checked_caps; eauto. }
  assert (C2 : forall s, In s (sc_asymmetric_signing c) -> escape_debug s = s /\ no_nl s).
  { intros s I. apply allowed_plain. right. eapply checked_algos; eauto. }
  destruct (plain_array _ C1) as [<- N1]. destruct (plain_array _ C2) as [<- N2].
  do 11 eexists. split; [reflexivity|]. repeat (split; [apply decimal_usize|]). unfold template_params. apply text_lines.
  repeat (constructor; [first [apply usize_no_nl|assumption]|]). constructor.
Qed.
(** Otherwise no file is generated, and the error is the one of the validation. *)
Theorem C67_refused ring oc rand c e : gen_config ring oc rand c = Err e <-> gen_config_text ring c = Err e.
Proof.
  unfold gen_config, gen_config_text. destruct (max_signature_size (sc_asymmetric_signing c)) as [n|e1|p]; cbn [rbind]; [|split; intros [= <-]; reflexivity|split; discriminate].
  destruct (cert_chains_validate c) as [u|e1|p]; cbn [rbind]; [|split; intros [= <-]; reflexivity|split; discriminate].
  destruct (validate_capabilities ring (sc_capabilities c)) as [u2|e1|p]; cbn [rbind]; [|split; intros [= <-]; reflexivity|split; discriminate].
  split; discriminate.
Qed.
(** No text of the configuration file other than digits and these names gets into
    the generated code. *)
Theorem C67_no_injection ring oc rand c cfg : gen_config ring oc rand c = Ok cfg ->
  Forall (fun s => In s ["CERT_CAP"; "CHAL_CAP"; "ENCRYPT_CAP"; "MAC_CAP"; "MUT_AUTH_CAP"; "KEY_EX_CAP"; "KEY_UPD_CAP"]) (@CAPABILITIES cfg) /\
  Forall (fun s => s = "ECDSA_ECC_NIST_P256") (@SIGNING_ALGOS cfg).
Proof.
  unfold gen_config. destruct (max_signature_size (sc_asymmetric_signing c)) as [n| |] eqn:E1; [|discriminate..].
  cbn [rbind]. destruct (cert_chains_validate c); [|discriminate..]. cbn [rbind].
  destruct (validate_capabilities ring (sc_capabilities c)) as [[]| |] eqn:E2; [|discriminate..]. cbn [rbind]. intros [= <-]. cbn [CAPABILITIES SIGNING_ALGOS]. split.
  - apply Forall_forall. intros s I. unfold validate_capabilities in E2. destruct (negb ring && _); [discriminate|]. exact (checked_caps _ E2 s I).
  - apply Forall_forall. exact (checked_algos _ _ E1).
Qed.
(** The configuration shipped with the crate, spdm-config-crypto.toml. *)
Example C67_example : gen_config true true true sample_toml = Ok sample_cfg /\
  exists text, gen_config_text true sample_toml = Ok text /\
    nth 3 (code_lines text) "" = "pub const TRANSCRIPT_SIZE: usize = 4096;" /\
    nth 11 (code_lines text) "" = "pub const ALGORITHMS_ASYMMETRIC_SIGNING: &'static [&'static str] = &[""ECDSA_ECC_NIST_P256""];".
Proof.
  split; [reflexivity|]. destruct (gen_config_text true sample_toml) as [text| |] eqn:E; [|vm_compute in E; discriminate..].
  exists text. split; [reflexivity|]. vm_compute in E. injection E as <-. split; vm_compute; reflexivity.
Qed.
Print Assumptions C67_generated_code.
Print Assumptions C67_refused.
Print Assumptions C67_no_injection.
