(** Examples for P_jsontext.v. *)

From Verif Require Import Base Io SpecUtf8 SpecText SpecWire Model_encoding Model_common
  Model_v1 Model_currency Model_policy Model_v2 Model_consensus Model_text Model_json Model_jsontypes SpecJson
  Model_jsontext SpecJsonText JsonTextProofs JsonTextUtf8 JsonTextMore Samples JsonProofs JsonLeafProofs JsonTypeProofs JsonExamples BasicProofs TextProofs.
Local Open Scope N_scope.

Definition s_key : rstring := MkStr (@MkVec 1 _ ["a"%byte; """"%byte; "b"%byte; x0a; "/"%byte] eq_refl) eq_refl.
Definition s_conditions : unlock_conditions :=
  MkUc (s_u64 7) (@MkVec 40 _ [MkUnlockKey (specifier_from (ascii "ed25519")) (@MkVec 1 _ [x00; xff] eq_refl)] eq_refl) (s_u64 1).

Definition line (s : string) : bytes := ascii s ++ [x0a].
Definition s_pretty : bytes :=
  line "{" ++
  line "  ""timelock"": 7," ++
  line "  ""publicKeys"": [" ++
  line "    ""ed25519:00ff""" ++
  line "  ]," ++
  line "  ""signaturesRequired"": 1" ++
  ascii "}".

Lemma examples_written :
  to_string j_string s_key = JOk (ascii """a\""b\n/""") /\
  to_string j_unlock_conditions s_conditions =
    JOk (ascii "{""timelock"":7,""publicKeys"":[""ed25519:00ff""],""signaturesRequired"":1}") /\
  to_string_pretty j_unlock_conditions s_conditions = JOk s_pretty.
Proof. split; [vm_compute; reflexivity|]. split; vm_compute; reflexivity. Qed.

Lemma s_conditions_ok : SurvivesJson j_unlock_conditions 2 s_conditions.
Proof.
  destruct (v1_survives Debug) as (_ & _ & H & _). apply H. constructor; [|constructor].
  exists (ascii "ed25519"), 9%nat. split; [reflexivity|]. split; [|split; [|split]].
  - intros u E. apply (f_equal (fun l => last l x00)) in E. rewrite last_last in E. vm_compute in E. discriminate.
  - apply utf8_spec. reflexivity.
  - repeat constructor; discriminate.
  - vm_compute. discriminate.
Qed.

Lemma uints_eq : forall w (l l' : list (uint w)), map uval l = map uval l' -> l = l'.
Proof.
  intros w l. induction l as [|x l IH]; intros [|y l'] H; try discriminate; [reflexivity|].
  cbn [map] in H. assert (uval x = uval y) by congruence. assert (map uval l = map uval l') by congruence.
  f_equal; [now apply uint_eq|auto].
Qed.

Lemma examples_read :
  from_str j_string (ascii " ""\u0061\u0022b\n\/"" ") = JOk s_key /\
  from_str j_unlock_conditions s_pretty = JOk s_conditions /\
  from_str (j_list j_u64) (ascii "[1 , 18446744073709551615 ]") = JOk [s_u64 1; s_u64 18446744073709551615].
Proof.
  split; [|split].
  - assert (E : match from_str j_string (ascii " ""\u0061\u0022b\n\/"" ") with
      | JOk s => bytes_eqb (vlist (sbytes s)) (vlist (sbytes s_key)) | _ => false end = true) by (vm_compute; reflexivity).
    destruct (from_str j_string _) as [s| |]; try discriminate. apply bytes_eqb_eq in E. f_equal. now apply rstring_eq.
  - apply (own_text _ j_unlock_conditions 2); [constructor|exact s_conditions_ok|reflexivity|]. right. apply examples_written.
  - assert (E : match from_str (j_list j_u64) (ascii "[1 , 18446744073709551615 ]") with
      | JOk l => map uval l | _ => [] end = [1; 18446744073709551615]) by (vm_compute; reflexivity).
    destruct (from_str (j_list j_u64) _) as [l| |]; try discriminate. f_equal. apply uints_eq. rewrite E. reflexivity.
Qed.

Lemma examples_rejected :
  map (from_str (j_list j_u64))
    [ ascii "[1,]"; ascii "[01]"; ascii "[1] 2"; ascii "[1"; ascii "[18446744073709551616]"; ascii "[1.0]"; ascii "[-0]"; ascii "[1 2]" ] =
  repeat JErr 8 /\
  map (from_str j_string)
    [ ascii """\ud800"""; ascii """\udc00\ud800"""; ascii """\x"""; [""""%byte; x0a; """"%byte]; ascii """a" ] = repeat JErr 5.
Proof. split; vm_compute; reflexivity. Qed.

Lemma examples_hypotheses :
  LibraryJson (j_v2_transaction Debug 40) /\ SurvivesJson j_unlock_conditions 2 s_conditions /\
  (exists t, to_string (j_policy 50) (tower 43) = JOk t) /\ json_policy (tower 43) /\ depth (tower 43) = 44%nat.
Proof.
  split; [constructor|]. split; [exact s_conditions_ok|]. split; [|split; [cbn; tauto|reflexivity]].
  destruct (to_string (j_policy 50) (tower 43)) as [t| |] eqn:E; [eauto| |]; exfalso.
  - assert (X : match to_string (j_policy 50) (tower 43) with JOk _ => true | _ => false end = true) by (vm_compute; reflexivity).
    rewrite E in X. discriminate.
  - assert (X : match to_string (j_policy 50) (tower 43) with JOk _ => true | _ => false end = true) by (vm_compute; reflexivity).
    rewrite E in X. discriminate.
Qed.
