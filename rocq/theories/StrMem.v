(** * StrMem: C88, the buffers the strings hold

    A string longer than 16 bytes owns a block, a shorter one none
    (basic_string.h:455-462).  Here: the number of blocks in memory and their bytes,
    at any moment of a history. *)
From Verif Require Import Base World Machine Utf8Model Utf8Spec Utf8Props StringModel StringProofs StringProps Weigh.
Local Open Scope N_scope.

Theorem C88_str_blocks_partial strict ops sp outs : srun (gspec strict) ∅ ops = SOk sp outs ->
  exists w, run_ops (str_step strict) ops winit = Ok (outs, w) /\
    N.of_nat (size (hmap (w_heap w))) = over (fun bs => if 16 <? nlen bs then 1 else 0) sp /\
    over (fun bs => if 16 <? nlen bs then nlen bs else 0) sp <= weigh sb_cap (w_heap w).
Proof.
  intros E. pose proof (srun_refines (gspec strict) (str_step strict) rel
    (fun s st o H => str_step_refines strict s st o H) ops ∅ winit (world_ok_init srep)) as H.
  rewrite E in H. destruct H as (w & E2 & [m Hw]). exists w. split; [done|].
  rewrite size_weigh, (wo_spec _ _ _ _ Hw), !over_fmap. split.
  - apply (weigh_world srep srep_dom _ w sp m (fun _ bs => if 16 <? nlen bs then 1 else 0) Hw).
    intros s bs fp [bs' u p r Hf Hle|bs' a r Hf Hgt _ Ha].
    + split; [constructor|]. destruct (N.ltb_spec 16 (nlen bs')); [lia|done].
    + split; [apply NoDup_singleton|]. cbn [fmap list_fmap sumN]. unfold at_. rewrite Ha.
      destruct (N.ltb_spec 16 (nlen bs')); [done|lia].
  - rewrite (weigh_world srep srep_dom _ w sp m
      (fun s bs => if 16 <? nlen bs then match s_store s with UCap c => c | _ => 0 end else 0) Hw).
    + pose proof (wo_rep _ _ _ _ Hw) as Hv. unfold over.
      assert (Hin : forall i e, (i, e) ∈ map_to_list m -> srep (w_heap w) (e_o e) (e_s e) (e_fp e)).
      { intros i e Hi%elem_of_map_to_list. by apply (Hv i). }
      revert Hin. generalize (map_to_list m). clear. induction l as [|[i e] l IH]; intros Hin; [done|].
      rewrite !fmap_cons. cbn [sumN snd]. apply N.add_le_mono.
      * destruct (Hin i e (elem_of_list_here _ _)) as [bs' u p r Hf Hle|bs' a r Hf Hgt _ Ha].
        -- destruct (N.ltb_spec 16 (nlen bs')); [lia|done].
        -- destruct (N.ltb_spec 16 (nlen bs')); [|lia]. cbn [s_store]. rewrite app_length, fmap_length. lia.
      * apply IH. intros j f Hj. apply (Hin j). by right.
    + intros s bs fp [bs' u p r Hf Hle|bs' a r Hf Hgt _ Ha].
      * split; [constructor|]. destruct (N.ltb_spec 16 (nlen bs')); [lia|done].
      * split; [apply NoDup_singleton|]. cbn [fmap list_fmap sumN]. unfold at_. rewrite Ha.
        destruct (N.ltb_spec 16 (nlen bs')); [|lia]. cbn. lia.
Qed.

(** Three strings, one of them long; the short ones need no block. *)
Definition C88_strs : list sop :=
  [SLit 0 (replicate 20 65); SLit 1 [66; 67]; SCopy 2 0; SPush 1 [68]; SMove 3 2].
Example C88_str_ex : match srun (gspec false) ∅ C88_strs with
  | SOk sp outs => over (fun bs => if 16 <? nlen bs then 1 else 0) sp = 2 /\
      over (fun bs => if 16 <? nlen bs then nlen bs else 0) sp = 40 /\ size sp = 4%nat
  | _ => False end.
Proof. vm_compute. repeat split. Qed.

Print Assumptions C88_str_blocks_partial.
