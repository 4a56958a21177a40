(** The repository's own tests of the root package replayed on the model: the
    expectations below are copied from /repo/id_test.go, types_test.go,
    time_test.go and params_test.go.  They test the model, they are not
    properties. *)
From Verif Require Import GoBase IdModel TypeModel TimeModel ParamModel JsonModel SchemaModel.
Open Scope Z_scope.

(** ** id_test.go *)
Definition ids (l : list Z) : list idc := fold_left (fun a n => ida_add a (id_new n)) l [].
Example TestID_must : must_id (B "abd") = None /\ must_id [] = None /\ fst (id_string None) = [] /\ id_val None = 0.
Proof. vm_compute. repeat split. Qed.
Example TestID : match must_id (B "123456789") with
  | Some id => id_val id = 123456789 /\ fst (id_string id) = B "123456789" /\ id_invalid id = false /\ id_valid id = true /\ id_val (id_reset id) = 0 /\
      id_value id = AInt64 123456789 /\ fst (id_string (fst (id_scan None (AInt64 123456789)))) = B "123456789" /\ snd (id_scan None (AInt64 123456789)) = true
  | None => False end.
Proof. vm_compute. repeat split. Qed.
Example TestID_nil : id_value None = ANil. Proof. reflexivity. Qed.
Example TestIDs : let l := [4; 1; 2; 3] in let al := new_id_array l in let i2 := ids [9; 8; 5; 6; 7; 5] in
  ida_list (ids [4; 1; 2; 3; 1]) = l /\ ida_list al = l /\ ida_list (ida_concat al al) = l /\ ida_string i2 = B "9,8,5,6,7" /\
  ida_contains i2 (id_new 5) = true /\ ida_contains i2 (id_new 55) = false /\ ida_overlaps i2 (ids [4; 1; 2; 3; 1]) = false /\ ida_overlaps (ids [4; 1; 2; 3; 1]) al = true /\
  ida_list (ida_concat al i2) = [4; 1; 2; 3; 9; 8; 5; 6; 7] /\ ida_string (ida_sort (ida_concat al i2)) = B "1,2,3,4,5,6,7,8,9" /\
  ida_int64s i2 = [9; 8; 5; 6; 7] /\ int64_array [9; 8; 5; 6; 7] = [9; 8; 5; 6; 7] /\
  ida_list (ida_from_strings [B "1"; B "2"; B "3"; B "4"; B "5"]) = [1; 2; 3; 4; 5].
Proof. vm_compute. repeat split. Qed.
Example TestIDsValue : ida_value [id_new 1; id_new 2] = AStr (B "{1,2}") /\ ida_value [] = ANil. Proof. vm_compute. split; reflexivity. Qed.
Example TestIDsScan : ida_scan [] (AStr (B "{1,2}")) = ([id_new 1; id_new 2], true) /\ ida_scan [] (AStr (B "{}")) = ([], true) /\
  snd (ida_scan [] (AStr [])) = false /\ snd (ida_scan [] (AStr (B "{abc}"))) = false.
Proof. vm_compute. repeat split. Qed.
Example TestIDsString : ida_strings [id_new 1; id_new 2] = [B "1"; B "2"] /\ ida_strings [] = []. Proof. vm_compute. split; reflexivity. Qed.
Example TestIDLog : id_json None = B "0" /\ option_map id_json (must_id (B "123456789")) = Some (B "123456789") /\ time_json zero_time = Some (B """""") /\
  time_json (parse_time (B "2023-05-29T16:26:14Z")) = Some (B """2023-05-29T16:26:14Z""") /\
  time_unjson zero_time (B """2023-05-29T16:26:14Z""") = (parse_time (B "2023-05-29T16:26:14Z"), true) /\ id_val (fst (id_unjson None (B "123456789"))) = 123456789.
Proof. vm_compute. repeat split. Qed.

(** ** time_test.go *)
(** time.Date(y, m, d, H, M, S, ns, time.UTC) *)
Definition date (y m d hh mm ss ns : Z) : gtime := mkTime (days_of y m d * 86400 + hh * 3600 + mm * 60 + ss) ns.
Definition fmt_case (t : gtime) (s : string) (e : gtime) : bool := beqb (time_string t) (B s) && (ns_of (time_utc e) =? ns_of (time_utc (parse_time (time_string t)))) && (ns_of (parse_time (time_string t)) =? ns_of e).
Example TestTimeFormat : forallb (fun x => x) [
  fmt_case (date 2019 11 30 17 45 59 999999999) "2019-11-30T17:45:59.999Z" (date 2019 11 30 17 45 59 999000000);
  fmt_case (date 2019 11 30 17 45 59 123456789) "2019-11-30T17:45:59.123Z" (date 2019 11 30 17 45 59 123000000);
  fmt_case (date 2019 11 30 17 45 59 12345678) "2019-11-30T17:45:59.012Z" (date 2019 11 30 17 45 59 12000000);
  fmt_case (date 2019 11 30 17 45 59 1234) "2019-11-30T17:45:59Z" (date 2019 11 30 17 45 59 0);
  fmt_case (date 2019 11 30 17 45 59 678000000) "2019-11-30T17:45:59.678Z" (date 2019 11 30 17 45 59 678000000)] = true.
Proof. vm_compute. reflexivity. Qed.
Definition parse_case (s : string) (e : gtime) : bool := ns_of (time_utc e) =? ns_of (time_utc (parse_time (B s))).
Example TestTimeParse : forallb (fun x => x) [
  parse_case "2019-11-30T17:45:59.999Z" (date 2019 11 30 17 45 59 999000000);
  parse_case "2019-11-30T17:45:59.123Z" (date 2019 11 30 17 45 59 123000000);
  parse_case "2019-11-30T17:45:59.012Z" (date 2019 11 30 17 45 59 12000000);
  parse_case "2019-11-30T17:45:59Z" (date 2019 11 30 17 45 59 0);
  parse_case "2019-11-30T17:45:59.678Z" (date 2019 11 30 17 45 59 678000000);
  parse_case "2019-11-30T17:45:59.999999999Z" (date 2019 11 30 17 45 59 999000000);
  parse_case "2019-11-30T17:45:59.99999999Z" (date 2019 11 30 17 45 59 999000000);
  parse_case "2019-11-30" (date 2019 11 30 0 0 0 0);
  parse_case "2019-11-30 17:45:59" (date 2019 11 30 17 45 59 0)] = true.
Proof. vm_compute. reflexivity. Qed.
Example TestTimeTruncate : let d := date 2019 1 2 3 4 5 1234567 in let d2 := date 2019 1 2 3 4 5 1000000 in
  time_string d = B "2019-01-02T03:04:05.001Z" /\ parse_time (time_string d) = d2 /\ parse_time (time_string (xtime_add d2 nano)) = xtime_add d2 nano.
Proof. vm_compute. repeat split. Qed.

(** ** types_test.go *)
Example TestTableInfo : let ti := mkTI (B "public") [] [] [B "id"; B "meta"; B "name"] [] [] [] in
  snd (all_columns ti) = B "id, meta, name" /\ aliased_columns ti (B "a") (fun c => beqb c (B "meta")) = B "a.id, NULL, a.name".
Proof. vm_compute. repeat split. Qed.
Example TestParseID : go_parse_uint [] = None /\ go_parse_uint (B "@123") = None /\ go_parse_uint (B "1234567") = Some 1234567 /\
  snd (parse_id []) = false /\ snd (parse_id (B "@123")) = false /\ id_val (try_parse_id []) = 0 /\ id_val (try_parse_id (B "@123")) = 0 /\
  id_val (try_parse_id (B "1234567")) = 1234567 /\ id_val (fst (parse_id (B "1234567"))) = 1234567 /\ snd (parse_id (B "1234567")) = true.
Proof. vm_compute. repeat split. Qed.
Example TestIDString : id_string_of 0 = B "0" /\ id_string_of 999 = B "999" /\ quoted_id_string 1234567 = B """1234567""" /\ quoted_id_string 0 = B """0""" /\
  id_quoted (id_new 1234567) = B """1234567""" /\ fst (id_string (id_new 1234567)) = B "1234567" /\ id_underscore (id_new 1234567) = B "_1234567".
Proof. vm_compute. repeat split. Qed.
(** Type 5 stands for the leaf type of cockroachdb/errors, *errutil.leafError. *)
Definition err_new (s : string) : err := EStack (ELeaf 5 (B s)).
(** errors.WithMessage, errors.Wrap *)
Definition with_message (e : err) (m : string) : err := EWrap (B m ++ B ": " ++ err_text e) e.
Definition wrap (e : err) (m : string) : err := EStack (with_message e m).
Definition nf := new_not_found (Some (err_new "not found")) (B "users") (B "123").
Example TestIsNotFoundError : forallb (fun x => x) [is_not_found (Some no_rows); is_not_found (Some (with_message (err_new "sql: no rows in result set") "failed"));
    is_not_found (Some nf); beqb (err_text nf) (B "record not found: users: 123"); is_not_found (Some (with_message nf "failed")); is_not_found (Some (wrap nf "failed"));
    is_not_found (Some (new_not_found (Some nf) (B "users") (B "email"))); beqb (err_text (new_not_found (Some nf) (B "users") (B "email"))) (B "record not found: users: email");
    is_not_found (Some (wrap nf "failed to find user")); is_not_found (check_not_found (Some nf) (B "users") (B "123"));
    match check_not_found (Some nf) (B "users") (B "123") with Some e => beqb (err_text e) (B "record not found: users: 123") | None => false end;
    crdb_is nf (new_not_found (Some (err_new "not found")) (B "users") (B "123")); negb (crdb_is nf (new_not_found (Some (err_new "not found")) (B "users") (B "456")));
    negb (is_not_found None); is_no_rows (new_not_found (Some no_rows) (B "users") (B "123"))] = true.
Proof. vm_compute. reflexivity. Qed.
Definition show0 (_ : goany) : bytes := [].
Example TestStrings : strings_value (Some [B "one"; B "two"]) = AStr (B "[""one"",""two""]") /\ strings_value (Some []) = AStr (B "[]") /\ strings_value None = ANil /\
  strings_scan show0 None [] (AStr (B "[""one"",""two""]")) = (Some [B "one"; B "two"], true) /\ strings_scan show0 None [] (AStr (B "[]")) = (Some [], true) /\ strings_scan show0 None [] ANil = (None, true).
Proof. vm_compute. repeat split. Qed.
Example TestMetadata : metadata_value (Some [(B "one", B "two")]) = AStr (B "{""one"":""two""}") /\ metadata_value (Some []) = ANil /\ metadata_value None = ANil /\
  metadata_scan None (AStr (B "{""one"":""two""}")) = (Some [(B "one", B "two")], true) /\
  length (entries (fst (metadata_scan None ANil))) = O /\
  let m1 := merge_in (Some [(B "one", B "two")]) [(B "three", B "four")] in
  length (entries m1) = 2%nat /\ length (entries (merge_in None [(B "three", B "four")])) = 1%nat /\ length (entries (merge_in (merge_in None [(B "three", B "four")]) (entries m1))) = 2%nat /\
  ordered_keys m1 = [B "one"; B "three"] /\ ordered_pairs m1 = [B "one"; B "two"; B "three"; B "four"] /\ ordered_keys (None : gmap bytes) = [] /\ ordered_pairs None = [].
Proof. vm_compute. repeat split. Qed.
Example TestKVSet : kvset_value (Some [(B "one", Some [B "two"])]) = AStr (B "{""one"":[""two""]}") /\ kvset_value (Some []) = ANil /\ kvset_value None = ANil /\
  kvset_scan None (AStr (B "{""one"":[""two""]}")) = (Some [(B "one", Some [B "two"])], true).
Proof. vm_compute. repeat split. Qed.
Example TestDbTime : let nb := parse_time (B "2022-04-01T16:11:15.123Z") in
  time_value zero_time = TNil /\ is_zero zero_time = true /\ time_string zero_time = [] /\ time_value nb = TTime nb /\ is_zero nb = false /\ time_string nb = B "2022-04-01T16:11:15.123Z" /\
  time_scan zero_time (TTime nb) = (time_utc nb, true) /\ from_unix_milli (unix_milli nb) = nb.
Proof. vm_compute. repeat split. Qed.
Example TestDbTimeParse : time_string (parse_time (B "2022-11-21T08:39:23.439786Z")) = B "2022-11-21T08:39:23.439Z". Proof. vm_compute. reflexivity. Qed.
Example TestDbTimeEncode : let xct := parse_time (B "2022-04-01T16:11:15Z") in time_json xct = Some (B """2022-04-01T16:11:15Z""") /\ time_unjson zero_time (B """2022-04-01T16:11:15Z""") = (xct, true) /\ time_json zero_time = Some (B """""") .
Proof. vm_compute. repeat split. Qed.
Example TestNULLString : nullstring_value (B "one") = AStr (B "one") /\ nullstring_value [] = ANil /\ nullstring_scan show0 [] (AStr (B "one")) = (B "one", true) /\ nullstring_scan show0 [] ANil = ([], true).
Proof. vm_compute. repeat split. Qed.
Example TestNumbers : id32_value 1 = AInt64 1 /\ id32_value 0 = ANil /\ id32_scan 0 (AInt64 1) = (1, true) /\ id32_scan 0 (AInt64 0) = (0, true) /\ id32_scan 0 ANil = (0, true) /\
  int64_value 1 = AInt64 1 /\ int64_value 0 = ANil /\ int64_scan 0 (AInt64 1) = (1, true) /\ int64_scan 0 ANil = (0, true) /\
  int32_value 1 = AInt64 1 /\ int32_value 0 = ANil /\ int32_scan 0 (AInt64 1) = (1, true) /\ int32_scan 0 ANil = (0, true) /\
  bool_value true = ABool true /\ bool_value false = ANil /\ bool_scan false (ABool true) = (true, true) /\ bool_scan false (ABool false) = (false, true) /\ bool_scan false ANil = (false, true).
Proof. vm_compute. repeat split. Qed.
Example TestMarshal : id_json (id_new 253518220474974837) = B "253518220474974837" /\ id_val (fst (id_unjson None (B "253518220474974837"))) = 253518220474974837 /\
  id_val (fst (id_unjson None (B """253518220474974837"""))) = 253518220474974837 /\ id32_json 1234 = B "1234" /\ id32_unjson 0 (B """1234""") = (1234, true) /\
  int32_json 123233 = B "123233" /\ int32_unjson 0 (B "123233") = (123233, true) /\ bool_json true = B "true" /\ bool_unjson false (B "true") = (true, true) /\
  float_json 0 = B "0.000000" /\ id_yaml (id_new 253518220474974837) = 253518220474974837.
Proof. vm_compute. repeat split. Qed.
Example TestMarshal_float : float_json 4593537016332243071 = B "0.123132". Proof. vm_compute. reflexivity. Qed.
Example TestCursor : encode_cursor [(B "after", CInt 1234567)] = B "eyJhZnRlciI6MTIzNDU2N30" /\ decode_cursor (B "eyJhZnRlciI6MTIzNDU2N30") = Some (Some [(B "after", CFloat 1234567)]).
Proof. vm_compute. split; reflexivity. Qed.

(** ** params_test.go *)
(** The expected hash, 0xb4963f3f3fad7867; murmur3 is a parameter of the model. *)
Definition mm0 (_ : bytes) : Z := 13012657714217449575.
Definition params_b : builder := run mm0 (B "ListXXX") [CReset; CSet 0 (AInt 1); CSet 1 (AStr (B "a")); CSet 2 (ABool true); CEnum 34 8; CEnum 61 4; CAdd [AInt 1000; AInt 1]; CFlags [22; 4]].
Example TestParams : name_of mm0 params_b = B "ListXXX_x2000000400000007_34x8_61x4_fx16_fx4" /\ qb_args params_b = [AInt 1; AStr (B "a"); ABool true; AInt 1000; AInt 1] /\
  map (pb_is_set params_b) [0; 1; 2; 3; 34; 61] = [true; true; true; false; true; true] /\ qb_flags params_b = [22; 4] /\ pb_get_enum params_b 34 = Some 8 /\ pb_get_enum params_b 5 = None /\
  name_of mm0 (fst (pb_name mm0 params_b)) = B "ListXXX_x2000000400000007_34x8_61x4_fx16_fx4" /\ try_call mm0 params_b (CSet 64 (AInt 1)) = None /\ try_call mm0 params_b (CEnum 64 1) = None.
Proof. vm_compute. repeat split. Qed.
Definition params_n : builder := run mm0 (B "ListXXX") [CReset; ParamModel.CNull [B "a"; B "b"; B "c"]].
Example TestParamsWithNuls : name_of mm0 params_n = B "ListXXX_x0_nb4963f3f3fad7867" /\ qb_args params_n = [] /\ qb_null params_n = [B "a"; B "b"; B "c"].
Proof. vm_compute. repeat split. Qed.
Example TestGetQueryParams : get_query_params [QP params_b] = Some params_b /\ get_query_params [QV (AStr (B "test"))] = None.
Proof. vm_compute. split; reflexivity. Qed.
