(** C96: every device of the cubeb backend has its own id, and the id selects this device. *)
From Coq Require Import List ZArith Bool String Lia.
From Verif Require Import Common_Model Device_Model Cubeb_Model Cubeb_Spec Cubeb_Proofs.
Import ListNotations.
Open Scope Z_scope.

(** Inputs have different ids, and so have outputs, whatever the hash function. *)
Theorem C96_distinct : forall hash h l k, list_devices hash h = Ok (inr l) -> NoDup (map e_id (filter (fun e => kind_eqb (e_kind e) k) l)).
Proof. exact distinct_of_kind. Qed.
Print Assumptions C96_distinct.
(** All ids are different if the hash of an input is never that of an output. *)
Theorem C96_distinct_all : forall hash h l, kinds_apart hash -> list_devices hash h = Ok (inr l) -> NoDup (map e_id l).
Proof. exact distinct. Qed.
Print Assumptions C96_distinct_all.
(** The list has one entry for each device, in order, with its kind, its group and its name, and opening a stream with the
    id of the entry opens this device and no other, whatever the hash function. *)
Theorem C96_selects : forall hash h l, list_devices hash h = Ok (inr l) -> List.length l = List.length (cubeb_devices h) /\
  forall i k d, nth_error (cubeb_devices h) i = Some (k, d) -> exists e, nth_error l i = Some e /\
    e_kind e = k /\ e_group e = c_group d /\ c_name d = Some (e_label e) /\ opened hash h k (Some (e_id e)) = Ok (inr (Some (c_devid d))).
Proof. exact entries. Qed.
Print Assumptions C96_selects.
(** An id that is not in the list selects no device. *)
Theorem C96_unknown : forall hash h l k id, list_devices hash h = Ok (inr l) -> (forall e, In e l -> e_kind e = k -> e_id e <> id) -> find_device hash h k id = Ok (inr None).
Proof. exact unknown. Qed.
Print Assumptions C96_unknown.
(** Listing ends without a panic for up to 256 devices of each kind, and gives all devices if all are described.  Partial: with
    257 equal devices the index overflows, as for cpal (C75_many_refuted). *)
Theorem C96_total_partial : forall hash h, indices_apart hash -> few_devices h -> exists r, list_devices hash h = Ok r /\ (all_described h -> exists l, r = inr l).
Proof. exact total. Qed.
Print Assumptions C96_total_partial.

(** two equal outputs, one that is called the same but has more channels, and a microphone of that name *)
Definition hash1 (k : kind) (name : string) (channels index : Z) : Z :=
  ((match k with VideoInput => 0 | AudioInput => 1 | AudioOutput => 2 end) + 3 * (channels + 65536 * (index + 256 * Z.of_nat (String.length name)))).
Definition host_a : cubeb := mk_cubeb_host (Some [mk_cubeb 7 (Some "usb"%string) 2 None]) (Some [mk_cubeb 1 (Some "usb"%string) 2 (Some "g"%string); mk_cubeb 2 (Some "usb"%string) 2 None; mk_cubeb 3 (Some "usb"%string) 6 None]).
Example C96_case : exists l, list_devices hash1 host_a = Ok (inr l) /\ map e_kind l = [AudioInput; AudioOutput; AudioOutput; AudioOutput] /\
  map (fun e => opened hash1 host_a (e_kind e) (Some (e_id e))) l = [Ok (inr (Some 7%nat)); Ok (inr (Some 1%nat)); Ok (inr (Some 2%nat)); Ok (inr (Some 3%nat))] /\
  find_device hash1 host_a AudioOutput 5 = Ok (inr None).
Proof. eexists. split; [vm_compute; reflexivity|]. split; [reflexivity|]. split; vm_compute; reflexivity. Qed.
Example C96_total_case : indices_apart hash1 /\ few_devices host_a /\ all_described host_a.
Proof.
  split; [intros k n c i i' I I' E; unfold hash1 in E; lia|]. split; [split; intros ds E; injection E as <-; cbn; lia|]. split; [discriminate|]. split; [discriminate|].
  intros k d I. cbn in I. repeat (destruct I as [I|I]; [injection I as <- <-; cbn; split; [discriminate|lia]|]). destruct I.
Qed.
Definition hash2 (k : kind) (name : string) (channels index : Z) : Z := 2 * index + match k with AudioInput => 1 | _ => 0 end.
Example C96_distinct_all_case : kinds_apart hash2 /\ exists l, list_devices hash2 host_a = Ok (inr l) /\ map e_id l = [1; 0; 2; 4].
Proof. split; [intros n c i n' c' i'; unfold hash2; lia|]. eexists. split; vm_compute; reflexivity. Qed.

(** One device without a friendly name, or with a number of channels beyond u16, hides all devices: the list is empty
    (cubeb.rs 611-618, media_devices/mod.rs 27-32). *)
Theorem C96_nameless_refuted : exists hash h d, indices_apart hash /\ few_devices h /\ In (AudioOutput, d) (cubeb_devices h) /\ c_name d <> None /\ 0 <= c_channels d <= 65535 /\ listed_devices hash h = Ok [].
Proof.
  exists hash1, (mk_cubeb_host (Some []) (Some [mk_cubeb 1 (Some "usb"%string) 2 None; mk_cubeb 2 None 2 None])), (mk_cubeb 1 (Some "usb"%string) 2 None).
  split; [exact (proj1 C96_total_case)|]. split; [split; intros ds E; injection E as <-; cbn; lia|]. split; [left; reflexivity|]. split; [discriminate|]. split; [cbn; lia|]. vm_compute. reflexivity.
Qed.
Print Assumptions C96_nameless_refuted.
(** A device that is unplugged after its id has been checked: no error, the default device is opened instead (cubeb.rs 371-380),
    while the context goes on to report the id as its sink (cubeb.rs 433-438). *)
Theorem C96_vanished_refuted : exists hash before after e l, list_devices hash before = Ok (inr l) /\ In e l /\ e_kind e = AudioOutput /\
  opened hash after AudioOutput (Some (e_id e)) = opened hash after AudioOutput None.
Proof.
  exists hash1, host_a, (mk_cubeb_host (Some []) (Some [])). eexists. eexists. split; [vm_compute; reflexivity|]. split; [right; left; reflexivity|]. split; vm_compute; reflexivity.
Qed.
Print Assumptions C96_vanished_refuted.
