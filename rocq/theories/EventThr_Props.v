(** Property C99: events used by threads. *)
From Coq Require Import List Bool Arith Lia Sorted.
From Verif Require Import PyBase EventThr_Model EventThr_Spec EventThr_Proofs EventThr_Proofs2.
Import ListNotations.

(** a call calls each listener at most once, in the order they were made *)
Theorem eventthr_order acts f : StronglySorted lt (invokes f (x_log (x_run acts))).
Proof. apply (xi_log _ (xinv_run acts)). Qed.
Print Assumptions eventthr_order.

(** ... only listeners made before it copied the list *)
Theorem eventthr_registered acts f i a b : x_log (x_run acts) = a ++ VInvoke f i :: b ->
  exists a1 a2, a = a1 ++ VSnap f :: a2 /\ In (VListen i) a1.
Proof. apply (xi_log _ (xinv_run acts)). Qed.
Print Assumptions eventthr_registered.

(** ... and, if it comes to the end of the list, all made before the call and neither closed nor dropped until its end *)
Theorem eventthr_all acts f m a b c i : x_log (x_run acts) = a ++ VFire f m :: b ++ VExit f :: c -> In (VListen i) a ->
  ~ In (VClosed i) (a ++ b) -> ~ In (VDropped i) (a ++ b) -> In (VInvoke f i) b.
Proof. apply (xi_log _ (xinv_run acts)). Qed.
Print Assumptions eventthr_all.

(** a listener closed is called only by calls that had already read its function *)
Theorem eventthr_close acts f i a b : x_log (x_run acts) = a ++ VClosed i :: b -> In (VInvoke f i) b -> In (VRead f i) a.
Proof. apply (xi_log _ (xinv_run acts)). Qed.
Print Assumptions eventthr_close.

(** ... so never by a later call *)
Theorem eventthr_close_later acts f m i a b c : x_log (x_run acts) = a ++ VClosed i :: b ++ VFire f m :: c -> ~ In (VInvoke f i) (x_log (x_run acts)).
Proof.
  pose proof (xi_log _ (xinv_run acts)) as L. intros E H.
  assert (E' : x_log (x_run acts) = (a ++ VClosed i :: b) ++ VFire f m :: c) by (rewrite E, <- app_assoc; reflexivity).
  assert (X : In (VInvoke f i) (b ++ VFire f m :: c)).
  { rewrite E' in H. apply in_app_iff in H as [H|H]; [exfalso; eapply (li_before _ L f m); eauto; reflexivity|]. apply in_or_app. auto. }
  pose proof (li_close _ L f i _ _ E X) as R. eapply (li_before _ L f m _ _ (VRead f i)); eauto; [reflexivity|]. apply in_or_app. auto.
Qed.
Print Assumptions eventthr_close_later.

(** after the end of the list, an exception or a deciding result a call does nothing more *)
Theorem eventthr_over acts f a b i : x_log (x_run acts) = a ++ b -> ended f a -> ~ In (VInvoke f i) b.
Proof. apply (xi_log _ (xinv_run acts)). Qed.
Print Assumptions eventthr_over.

(** a listener dropped is never called again once there is a moment without calls going on *)
Theorem eventthr_dropped acts1 acts2 i f b : let l := x_log (x_run acts1) in In (VDropped i) l -> quiescent l ->
  x_log (x_run (acts1 ++ acts2)) = l ++ b -> ~ In (VInvoke f i) b.
Proof.
  intros l D Q E. unfold x_run in E. rewrite fold_left_app in E. fold (x_run acts1) in E.
  eapply gone_fold; [apply xinv_run|apply quiescent_gone; [apply xinv_run| |]|]; eauto.
Qed.
Print Assumptions eventthr_dropped.

(** two threads: call 0 is inside listener 0 when listener 1 is closed, 2 is dropped, 3 is made and call 1 is made *)
Definition et_acts : list xact :=
  [XListen; XListen; XListen; XFire MFire; XGo 0; XGo 0; XGo 0; XClose 1; XDrop 2; XListen; XFire MAny; XGo 1; XGo 1; XGo 1;
   XEnd 1 (Some false); XGo 1; XGo 1; XGo 1; XEnd 1 (Some true); XEnd 0 (Some true); XGo 0; XGo 0; XGo 0; XEnd 0 None; XFire MAll; XGo 2; XGo 2].
Example eventthr_ex : let s := x_run et_acts in
  invokes 0 (x_log s) = [0; 2] /\ invokes 1 (x_log s) = [0; 2] /\ x_reg s = [0; 1; 3] /\
  x_fires s = [(MFire, FOver); (MAny, FOver); (MAll, FRead [0; 1; 3] 0 [1; 3])].
Proof. vm_compute. auto. Qed.
(** a listener dropped is called by a call made later, kept alive by the call going on *)
Theorem eventthr_dropped_refuted : exists acts a b c, x_log (x_run acts) = a ++ VDropped 2 :: b ++ VFire 1 MAny :: c /\ In (VInvoke 1 2) c.
Proof.
  exists et_acts. eexists [_; _; _; _; _; _; _; _], [_], _. split; [vm_compute; reflexivity|]. vm_compute. tauto.
Qed.
Print Assumptions eventthr_dropped_refuted.
(** ... and one closed is called after close has returned *)
Theorem eventthr_closed_refuted : exists acts a b, x_log (x_run acts) = a ++ VClosed 0 :: b /\ In (VInvoke 0 0) b.
Proof.
  exists [XListen; XFire MFire; XGo 0; XGo 0; XClose 0; XGo 0]. eexists [_; _; _; _], _. split; [vm_compute; reflexivity|]. vm_compute. tauto.
Qed.
Print Assumptions eventthr_closed_refuted.
