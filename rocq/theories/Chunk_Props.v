(** C49: what is written to a stream with two buffers reaches the socket in order, as it is or as a chunked body that the client decodes to it; what is read is what the peer sent. *)
From Coq Require Import String.
From Verif Require Import Base StrStream_Model BufStream_Model Txt_Model Chunk_Model Chunk_Spec Chunk_Proofs Chunk_Proofs2.
Open Scope string_scope. Open Scope Z_scope. Open Scope list_scope.

(** ** Writing *)
(** No history of calls has undefined behaviour, whatever sends fail. *)
Theorem C49_defined_partial : forall size script ops, 0 <= size < 2 ^ 32 -> all_or_nothing script -> Forall any_call ops ->
  match wrun (ws_new size script) ops with Some (answers, _) => List.length answers = List.length ops | None => False end.
Proof.
  intros size script ops B W A. destruct (any_run ops _ [] (new_inv size script B W) eq_refl A) as (l & s' & u' & -> & L & _). exact L.
Qed.
Print Assumptions C49_defined_partial.

(** After any history that ends with a successful Flush: a page that is written, and flushed, with calls that return true. What is
    sent is the page, or chunks that, with the last chunk after them, are a body whose data are the page. *)
Theorem C49_sent_partial : forall size script before answers s mode page l s', 0 <= size < 2 ^ 32 -> all_or_nothing script -> Forall any_call before ->
  wrun (ws_new size script) (before ++ [WFlush]) = Some (answers, s) -> last answers false = true ->
  Forall page_call page -> wrun s (WChunk mode :: page ++ [WFlush]) = Some (l, s') -> good l ->
  exists w, wire (sock s') = wire (sock s) ++ w /\ if mode then forall rest, body (w ++ last_chunk ++ rest) (text page) rest else w = text page.
Proof.
  intros size script before answers s mode page l s' B W A E La P E2 G. destruct (flushed size script before answers s B W A E La) as (I & C).
  destruct (sent_ok s mode page l s' I C P E2 G) as (_ & _ & w & Ew & F). exists w. split; [exact Ew|]. apply frames_body, F.
Qed.
Print Assumptions C49_sent_partial.

(** If the last call fails, what has been sent is the beginning of the page, or of a body whose data are the page. *)
Theorem C49_failure_partial : forall size script before answers s mode page o l s', 0 <= size < 2 ^ 32 -> all_or_nothing script -> Forall any_call before ->
  wrun (ws_new size script) (before ++ [WFlush]) = Some (answers, s) -> last answers false = true ->
  Forall page_call page -> page_call o -> wrun s (WChunk mode :: page ++ [o]) = Some (l ++ [false], s') -> good l ->
  exists w c, wire (sock s') = wire (sock s) ++ w /\ if mode then body (w ++ c) (text (page ++ [o])) [] else w ++ c = text (page ++ [o]).
Proof.
  intros size script before answers s mode page o l s' B W A E La P Po E2 G. destruct (flushed size script before answers s B W A E La) as (I & C).
  destruct (fails_ok s mode page o l s' I C P Po E2 G) as (w & c & Ew & F). destruct mode.
  - exists w, (c ++ last_chunk). split; [exact Ew|]. pose proof (frames_body true _ _ F []) as H. rewrite app_nil_r, <- app_assoc in H. exact H.
  - exists w, c. split; [exact Ew|]. exact F.
Qed.
Print Assumptions C49_failure_partial.

(** A reply: a header, which is flushed, a page in chunks, which is flushed, and the final chunk. *)
Theorem C49_reply_partial : forall size script header page l s, 0 <= size < 2 ^ 32 -> all_or_nothing script -> Forall page_call header -> Forall page_call page ->
  wrun (ws_new size script) (WChunk false :: header ++ [WFlush] ++ WChunk true :: page ++ [WFlush] ++ [WFinal]) = Some (l, s) -> good l ->
  exists b, wire (sock s) = text header ++ b /\ body b (text page) [].
Proof.
  intros size script header page l s B W H P E G.
  change (WChunk false :: header ++ [WFlush] ++ WChunk true :: page ++ [WFlush] ++ [WFinal]) with ((WChunk false :: header) ++ [WFlush] ++ (WChunk true :: page) ++ [WFlush] ++ [WFinal]) in E.
  rewrite !app_assoc, (wrun_app _ [WFinal]) in E. rewrite <- !app_assoc in E. rewrite (app_assoc _ [WFlush]), wrun_app in E. cbn [app] in E.
  destruct (wrun (ws_new size script) (WChunk false :: header ++ [WFlush])) as [(l1, s1)|] eqn:E1; [|discriminate].
  destruct (wrun s1 (WChunk true :: page ++ [WFlush])) as [(l2, s2)|] eqn:E2; [|discriminate]. cbn [wrun] in E.
  destruct (wstep s2 WFinal) as [(r, s3)|] eqn:E3; [|discriminate]. injection E as <- <-. apply good_app in G. destruct G as (G & G3). apply good_app in G. destruct G as (G1 & G2).
  destruct (sent_ok _ false header l1 s1 (new_inv size script B W) eq_refl H E1 G1) as (I1 & C1 & w1 & W1 & F1).
  destruct (sent_ok _ true page l2 s2 I1 C1 P E2 G2) as (I2 & C2 & w2 & W2 & F2).
  destruct (final_ok s2 [] I2) as (r' & s3' & E4 & _ & _ & W3). rewrite E4 in E3. injection E3 as <- <-. specialize (W3 (Forall_inv G3)).
  exists (w2 ++ last_chunk). rewrite W3, W2, W1. cbn [ws_new sock wire app]. cbn [frames] in F1. subst w1. rewrite <- app_assoc. split; [reflexivity|].
  pose proof (frames_body true _ _ F2 []) as X. rewrite app_nil_r in X. exact X.
Qed.
Print Assumptions C49_reply_partial.

(** ** Reading *)
(** Every history of reads is defined, for every way in which the bytes arrive or fail to. The bytes stored are those sent, in
    order. A call that returns true says how many it stored: some, and as many as asked for when everything goes through the
    buffer (calib 0, as in the HTTP stream). *)
Theorem C49_read_partial : forall size calib peer ops, 0 <= size < 2 ^ 32 -> Forall read_call ops ->
  match rrun (rs_new size calib peer) ops with
  | Some (answers, _) =>
      (exists rest, coming peer = stored answers ++ rest) /\
      Forall2 (fun o a => r_ok a = true -> r_num a = Z.of_nat (List.length (r_bytes a)) /\ 0 <= r_num a <= asked o /\ (0 < asked o -> 0 < r_num a) /\ (calib = 0 -> r_num a = asked o)) ops answers
  | None => False
  end.
Proof.
  intros size calib peer ops B C. destruct (rrun_ok ops (rs_new size calib peer) [] 0) as (l & s' & rest & -> & F & R).
  - apply BufStream_Proofs.bnew. destruct (size <? 8) eqn:E; lia.
  - exact C.
  - split; [exists rest; exact R|]. clear - F. cbn [rs_new rcalib] in F. induction F as [|o a ops l (A1 & A2 & A3) _ IH]; constructor; [|exact IH]. intros H. destruct (A3 H) as (X & Y & Q). split; [exact X|]. split; [lia|]. auto.
Qed.
Print Assumptions C49_read_partial.
Corollary C49_read_all_partial : forall size peer ops, 0 <= size < 2 ^ 32 -> Forall read_call ops ->
  match rrun (rs_new size 0 peer) ops with
  | Some (answers, _) => Forall (fun a => r_ok a = true) answers -> exists rest, coming peer = told answers ++ rest
  | None => False
  end.
Proof.
  intros size peer ops B C. pose proof (C49_read_partial size 0 peer ops B C) as H. destruct (rrun (rs_new size 0 peer) ops) as [(l, s)|]; [|contradiction].
  destruct H as ((rest & R) & F). intros G. exists rest. rewrite R. f_equal. clear R. unfold stored, told. induction F as [|o a ops' l A _ IH]; [reflexivity|]. cbn [flat_map].
  rewrite <- IH by (try apply (Forall_inv_tail G); apply (Forall_inv_tail C)). destruct (A (Forall_inv G)) as (-> & _). rewrite Nat2Z.id, firstn_all. reflexivity.
Qed.
Print Assumptions C49_read_all_partial.

(** ** A case of each *)
Example C49_reply_example :
  wrun (ws_new 8 []) (WChunk false :: [WPutAll (chars "HTTP/1.1 200 OK")] ++ [WFlush] ++ WChunk true :: [WWrite (chars "<html>0123456789</html>"); WPutC 33] ++ [WFlush] ++ [WFinal])
  = Some ([true; true; true; true; true; true; true; true],
      WS (IOB (map Some (chars "</html>!")) 8 8 8 0) true 0
         (Net [] (chars "HTTP/1.1 200 OK8" ++ [13; 10] ++ chars "<html>01" ++ [13; 10] ++ chars "8" ++ [13; 10] ++ chars "23456789" ++ [13; 10] ++ chars "8" ++ [13; 10] ++ chars "</html>!" ++ [13; 10]
                  ++ chars "0" ++ [13; 10; 13; 10]))).
Proof. vm_compute. reflexivity. Qed.
Example C49_failure_example :
  match wrun (ws_new 8 [2 ^ 40; 0]) [WChunk true; WPutC 65; WFlush] with
  | Some (l, s) => l = [true; true] ++ [false] /\ wire (sock s) = [49; 13; 10] | None => False end.
Proof. vm_compute. split; reflexivity. Qed.
Example C49_read_example : match rrun (rs_new 8 0 (Peer [3; 100; 100] (chars "abcdefghijklmnop"))) [RGetC; RRead 12; RGetC] with
  | Some (l, _) => told l = chars "abcdefghijklmn" /\ Forall (fun a => r_ok a = true) l | None => False end.
Proof. vm_compute. split; [reflexivity|repeat constructor]. Qed.

(** ** What does not hold *)
(** If send takes only a part, which is possible, the rest of the buffer is lost, and Flush returns true. *)
Theorem C49_partial_send_refuted : match wrun (ws_new 8 [3]) [WWrite (chars "abcdef"); WFlush] with
  | Some (l, s) => l = [true; true] /\ wire (sock s) = chars "abc" | None => False end.
Proof. vm_compute. split; reflexivity. Qed.
(** A Flush that failed is called again: the size of the chunk is sent twice, and what is sent is not a chunked body. *)
Theorem C49_retry_refuted : match wrun (ws_new 8 [2 ^ 40; 0]) [WChunk true; WWrite (chars "abcdef"); WFlush; WFlush; WFinal] with
  | Some (l, s) => l = [true; true; false; true; true] /\ forall d rest, ~ body (wire (sock s)) d rest | None => False end.
Proof. vm_compute. split; [reflexivity|]. discriminate. Qed.
(** The final chunk does not wait for the buffer: without a Flush the body is empty, and the page comes after it. *)
Theorem C49_final_refuted : match wrun (ws_new 8 []) [WChunk true; WWrite (chars "abcdef"); WFinal; WFlush] with
  | Some (l, s) => good l /\ body (wire (sock s)) [] ([54; 13; 10] ++ chars "abcdef" ++ [13; 10]) | None => False end.
Proof. vm_compute. split; [repeat constructor|reflexivity]. Qed.
(** The header must have been flushed before the mode is changed: else it is in a chunk. *)
Theorem C49_mode_refuted : match wrun (ws_new 8 []) [WWrite (chars "header"); WChunk true; WFlush; WFinal] with
  | Some (l, s) => good l /\ body (wire (sock s)) (chars "header") [] | None => False end.
Proof. vm_compute. split; [repeat constructor|reflexivity]. Qed.
(** With the parameter of other buffered streams (4), a large Write is sent in the middle of the chunks, without a size. *)
Theorem C49_large_write_refuted : match wrun (ws_new 8 []) [WCalib 4; WChunk true; WWrite (chars "<html>"); WFlush; WFinal] with
  | Some (l, s) => good l /\ forall d rest, ~ body (wire (sock s)) d rest | None => False end.
Proof. vm_compute. split; [repeat constructor|]. discriminate. Qed.
(** A Read that fails in the middle (a timeout, or the end of the connection) does not count what it has just stored: those bytes are
    not returned by the next calls. *)
Theorem C49_read_failure_refuted : match rrun (rs_new 8 0 (Peer [100; 0; 100] (chars "abcdefghijkl"))) [RRead 10; RRead 4] with
  | Some (l, _) => map r_ok l = [false; true] /\ map r_num l = [0; 4] /\ told l = chars "ijkl" | None => False end.
Proof. vm_compute. repeat split; reflexivity. Qed.
