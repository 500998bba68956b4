(** * Cases of C58 for presolving and for a chosen basis *)
From Verif Require Import ExPresolve ExSafe PreSafe TextPresolve.
From Verif Require Import SpecSize SpecGSize SpecFSize GSizeP ExSize ExGSize ExWarm.
From Verif Require Import Examples ExGeneral ExParse ExFile ExAnswers Pipeline SolverQ SpecGeneral PipelineP SpecFile TextPipeline.
Local Open Scope Qc_scope.
Lemma ex_warm_data : data_size 1 4 ex_warm.
Proof. apply data_sizeb_ok. vm_compute. reflexivity. Qed.
Lemma ex_gsize_safe fuel : safe_run fuel ex_gsize = true.
Proof. revert fuel. apply (safe_check 20); vm_compute; [discriminate|reflexivity]. Qed.
Lemma ex_gsize_presolved r n : presolve_and_solve r n 30 ex_gsize = Ok (Solved_to gsize_answer).
Proof. apply answer_is_ok. destruct r, n; vm_compute; reflexivity. Qed.
Lemma small_size : fdata_size 2 20 small_file.
Proof.
  constructor.
  - lia.
  - intros c r v H. cbn in H. repeat (destruct H as [H|H]; [injection H as <- <- <-; apply partsb_ok; vm_compute; reflexivity|]). destruct H.
  - intros c r v H. cbn in H. repeat (destruct H as [H|H]; [injection H as <- <- <-; apply partsb_ok; vm_compute; reflexivity|]). destruct H.
  - intros c r v H. cbn in H. repeat (destruct H as [H|H]; [injection H as <- <- <-; apply partsb_ok; vm_compute; reflexivity|]). destruct H.
  - intros t g c v H T. cbn [small_file f_bounds In] in H. repeat (destruct H as [H|H]; [injection H as <- <- <-; cbn [In] in T; repeat (destruct T as [T|T]; [first [discriminate T|injection T as ->; apply partsb_ok; vm_compute; reflexivity]|]); destruct T|]). destruct H.
Qed.
