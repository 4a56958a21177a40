(** The repository's own tests of package flake replayed on the model, with the
    clock readings spelled out; expectations from
    /repo/pkg/flake/flake_internal_test.go and flake_test.go.  They test the
    model, they are not properties. *)
From Verif Require Import GoBase FlakeModel.
Open Scope Z_scope.
Definition sec : Z := 1000000000.
(** 2024-05-01 00:00:00 UTC *)
Definition now0 : Z := 1714521600 * sec.
Definition year : Z := 365 * 24 * 3600 * sec.
Definition gen (st : settings) : option flake := new_generator st now0 now0 now0.
Definition ok_settings (m : Z) : settings := mkSettings None (Some m) (fun _ => true).
(** TestNilFlake: a start in the future, no machine id, an invalid machine id *)
Example TestNilFlake : gen (mkSettings (Some (now0 + 60 * sec)) (Some 1) (fun _ => true)) = None /\ gen (mkSettings None None (fun _ => true)) = None /\ gen (mkSettings None (Some 1) (fun _ => false)) = None.
Proof. vm_compute. repeat split. Qed.
(** TestFlakeOnce *)
Example TestFlakeOnce : flakeTimeUnit = 1000000 /\ match gen (mkSettings (Some now0) (Some 77) (fun _ => true)) with
  | Some f => match n_id (next_id f (now0 + 5 * flakeTimeUnit) (now0 + 5 * flakeTimeUnit)) with
              | Some id => decompose id = mkParts id 0 5 0 77
              | None => False end
  | None => False end.
Proof. vm_compute. split; reflexivity. Qed.
(** TestMultiple: later ids are greater, whatever the machine *)
Example TestMultiple : match gen (ok_settings 15), gen (ok_settings 0) with
  | Some f, Some g => match n_id (next_id f (now0 + 10 * flakeTimeUnit) 0), n_id (next_id g (now0 + 20 * flakeTimeUnit) 0) with
                      | Some a, Some b => (a <? b) = true /\ p_machine (decompose a) = 15 /\ p_machine (decompose b) = 0 /\ (id_time (GFlake f) a <? id_time (GFlake g) b) = true
                      | _, _ => False end
  | _, _ => False end.
Proof. vm_compute. repeat split. Qed.
(** TestNextIDError: 69 years after the start identifiers are left, 70 years after it NextID panics *)
Definition aged (n : Z) : option (option Z) :=
  match gen (mkSettings (Some now0) (Some 77) (fun _ => true)) with
  | Some f => let t := now0 + n * year in Some (n_id (next_id f t t))
  | None => None end.
Example TestNextIDError : match aged 69 with Some (Some _) => True | _ => False end /\ aged 70 = Some None.
Proof. vm_compute. split; [exact I | reflexivity]. Qed.
(** TestDefault: starts at DefaultStartTime; an id of 2024 is above the one in the test *)
Example TestDefault : match gen (ok_settings 77) with
  | Some f => match n_id (next_id f (now0 + sec) 0) with
              | Some id => from_flake_time (f_start f) = default_start /\ (311061752341070108 <? id) = true /\ (default_start <? id_time (GFlake f) id) = true /\ id_time (GFlake f) id = now0 + sec /\
                           last_id (GFlake (n_flake (next_id f (now0 + sec) 0))) = id /\ (first_id (GFlake f) <? id) = true
              | None => False end
  | None => False end.
Proof. vm_compute. repeat split. Qed.
(** TestFlake: 2090-09-07 still works and reads back *)
Definition t2090 : Z := 3808425600 * sec.
Example TestFlake : match gen (ok_settings 77) with
  | Some f => match n_id (next_id f t2090 t2090) with
              | Some id => (id <? maxValue) = true /\ id_time (GFlake f) id = t2090
              | None => False end
  | None => False end.
Proof. vm_compute. split; reflexivity. Qed.
