-Q theories Verif
theories/Any_Model.v
theories/Any_Proofs.v
theories/Any_Proofs2.v
theories/Any_Props.v
theories/Any_Spec.v
theories/AsyncBroker_Model.v
theories/AsyncBroker_Proofs.v
theories/AsyncBroker_Props.v
theories/Base.v
theories/Base64_Model.v
theories/Base64_Proofs.v
theories/Base64_Props.v
theories/Base64_Spec.v
theories/BitSet_Model.v
theories/BitSet_Proofs.v
theories/BitSet_Props.v
theories/BitSet_Spec.v
theories/BitsBase.v
theories/Broker_Model.v
theories/Broker_Props.v
theories/Bsb_Model.v
theories/Bsb_Proofs.v
theories/Bsb_Props.v
theories/Bsb_Spec.v
theories/Btr_Model.v
theories/Btr_Proofs.v
theories/Btr_Props.v
theories/Btr_Spec.v
theories/BufStream_Model.v
theories/BufStream_Proofs.v
theories/BufStream_Props.v
theories/BufStream_Spec.v
theories/CRC_Model.v
theories/CRC_Proofs.v
theories/CRC_Props.v
theories/CRC_Spec.v
theories/Cfg_Db.v
theories/Cfg_Json.v
theories/Cfg_Model.v
theories/Cfg_Props.v
theories/Cfg_Sound.v
theories/Cfg_SoundJson.v
theories/Cfg_SoundXml.v
theories/Cfg_Spec.v
theories/Cfg_Standard.v
theories/Cfg_Values.v
theories/Cfg_Xml.v
theories/Chunk_Model.v
theories/Chunk_Proofs.v
theories/Chunk_Proofs2.v
theories/Chunk_Props.v
theories/Chunk_Spec.v
theories/CircBuf_Model.v
theories/CircBuf_Props.v
theories/Conc.v
theories/ConfigDB_Model.v
theories/ConfigDB_Proofs.v
theories/ConfigDB_Props.v
theories/ConfigDB_Spec.v
theories/Container_Model.v
theories/Container_Props.v
theories/CountSem_Model.v
theories/CountSem_Props.v
theories/Crd_Model.v
theories/Crd_Proofs.v
theories/Crd_Props.v
theories/Crd_Spec.v
theories/Csl_Model.v
theories/Csl_Proofs.v
theories/Csl_Props.v
theories/Csl_Spec.v
theories/EmbThread_Model.v
theories/EmbThread_Props.v
theories/EventSem_Model.v
theories/EventSem_Props.v
theories/Fast_Model.v
theories/Fast_Proofs.v
theories/Fast_Proofs2.v
theories/Fast_Proofs3.v
theories/Fast_Proofs4.v
theories/Fast_Props.v
theories/Fast_Spec.v
theories/Flt_Model.v
theories/Flt_Proofs.v
theories/Flt_Proofs2.v
theories/Flt_Props.v
theories/Flt_Spec.v
theories/Fmap_Model.v
theories/Fmap_Proofs.v
theories/Fmap_Proofs2.v
theories/Fmap_Proofs3.v
theories/Fmap_Props.v
theories/Fmap_Spec.v
theories/Fmt_Model.v
theories/Fmt_Proofs.v
theories/Fmt_Props.v
theories/Fmt_Spec.v
theories/Fpe_Model.v
theories/Fpe_Proofs.v
theories/Fpe_Props.v
theories/Fpe_Spec.v
theories/Fpr_Model.v
theories/Fpr_Proofs.v
theories/Fpr_Proofs2.v
theories/Fpr_Proofs3.v
theories/Fpr_Proofs4.v
theories/Fpr_Proofs5.v
theories/Fpr_Proofs6.v
theories/Fpr_Proofs7.v
theories/Fpr_Proofs8.v
theories/Fpr_Proofs9.v
theories/Fpr_Props.v
theories/Fpr_Spec.v
theories/Ftx_Model.v
theories/Ftx_Proofs.v
theories/Ftx_Proofs2.v
theories/Ftx_Proofs3.v
theories/Ftx_Proofs4.v
theories/Ftx_Proofs5.v
theories/Ftx_Proofs6.v
theories/Ftx_Proofs7.v
theories/Ftx_Props.v
theories/Ftx_Spec.v
theories/Gds_Model.v
theories/Gds_Proofs.v
theories/Gds_Proofs2.v
theories/Gds_Props.v
theories/Gds_Spec.v
theories/Hpm_Model.v
theories/Hpm_Proofs.v
theories/Hpm_Props.v
theories/Hpm_Spec.v
theories/Http_Model.v
theories/Http_Proofs.v
theories/Http_Proofs2.v
theories/Http_Proofs3.v
theories/Http_Props.v
theories/Http_Spec.v
theories/IntArith_Model.v
theories/IntArith_Proofs.v
theories/IntArith_Proofs2.v
theories/IntArith_Proofs3.v
theories/IntArith_Props.v
theories/IntArith_Spec.v
theories/IntText_Model.v
theories/IntText_Proofs.v
theories/IntText_Proofs2.v
theories/IntText_Proofs3.v
theories/IntText_Props.v
theories/IntText_Spec.v
theories/Isr_Model.v
theories/Isr_Proofs.v
theories/Isr_Props.v
theories/Isr_Spec.v
theories/Itp_Model.v
theories/Itp_Proofs.v
theories/Itp_Props.v
theories/Itp_Spec.v
theories/Lex_Model.v
theories/Lex_Proofs.v
theories/Lex_Proofs2.v
theories/Lex_Proofs3.v
theories/Lex_Props.v
theories/Lex_Spec.v
theories/LinkedList_Model.v
theories/LinkedList_Proofs.v
theories/LinkedList_Proofs2.v
theories/LinkedList_Props.v
theories/LinkedList_Spec.v
theories/Loader_Model.v
theories/Loader_Proofs.v
theories/Loader_Proofs2.v
theories/Loader_Props.v
theories/Loader_Spec.v
theories/Map_Model.v
theories/Map_Proofs.v
theories/Map_Props.v
theories/Map_Spec.v
theories/Mar_Model.v
theories/Mar_Proofs.v
theories/Mar_Props.v
theories/Mar_Spec.v
theories/MathParser_Model.v
theories/MathParser_Proofs.v
theories/MathParser_Props.v
theories/MathParser_Spec.v
theories/Md5_Model.v
theories/Md5_Proofs.v
theories/Md5_Proofs2.v
theories/Md5_Props.v
theories/Md5_Spec.v
theories/Msg_Model.v
theories/Msg_Props.v
theories/Mtx_Algebra.v
theories/Mtx_Loops.v
theories/Mtx_Memory.v
theories/Mtx_Model.v
theories/Mtx_Props.v
theories/Mtx_Spec.v
theories/MultiBuf_Model.v
theories/MultiBuf_Props.v
theories/Paths.v
theories/PollMutex_Model.v
theories/PollMutex_Props.v
theories/Pool_Model.v
theories/Pool_Proofs.v
theories/Pool_Props.v
theories/Prod_Before.v
theories/Prod_Model.v
theories/Prod_Proofs.v
theories/Prod_Props.v
theories/Prod_Spec.v
theories/Prt_Model.v
theories/Prt_Proofs.v
theories/Prt_Props.v
theories/Prt_Spec.v
theories/Prt_Trees.v
theories/Prt_Values.v
theories/QueueFilter_Model.v
theories/QueueFilter_Props.v
theories/Reads.v
theories/Ref_Model.v
theories/Ref_Proofs.v
theories/Ref_Props.v
theories/Rsd_Model.v
theories/Rsd_Proofs.v
theories/Rsd_Props.v
theories/Rsd_Spec.v
theories/RuntimeEval_Model.v
theories/RuntimeEval_Proofs.v
theories/RuntimeEval_Proofs2.v
theories/RuntimeEval_Proofs3.v
theories/RuntimeEval_Proofs4.v
theories/RuntimeEval_Proofs5.v
theories/RuntimeEval_Proofs6.v
theories/RuntimeEval_Proofs7.v
theories/RuntimeEval_Props.v
theories/RuntimeEval_Spec.v
theories/Sched_Model.v
theories/Sched_Proofs.v
theories/Sched_Proofs2.v
theories/Sched_Proofs3.v
theories/Sched_Proofs4.v
theories/Sched_Props.v
theories/Sched_Spec.v
theories/Shp_Model.v
theories/Shp_Proofs.v
theories/Shp_Proofs2.v
theories/Shp_Props.v
theories/Shp_Spec.v
theories/SigMem_Model.v
theories/SigMem_Proofs.v
theories/SigMem_Proofs2.v
theories/SigMem_Proofs3.v
theories/SigMem_Props.v
theories/SigMem_Spec.v
theories/Slk_Model.v
theories/Slk_Proofs.v
theories/Slk_Sound.v
theories/Smr_Model.v
theories/Smr_Proofs.v
theories/Smr_Props.v
theories/Smr_Spec.v
theories/Sst_Model.v
theories/Sst_Proofs.v
theories/Sst_Props.v
theories/Sst_Spec.v
theories/StateMach_Model.v
theories/StateMach_Props.v
theories/StaticList_Model.v
theories/StaticList_Proofs.v
theories/StaticList_Props.v
theories/StaticList_Spec.v
theories/StrStream_Model.v
theories/StrStream_Proofs.v
theories/StrStream_Props.v
theories/StrStream_Spec.v
theories/Tcv_Model.v
theories/Tcv_Proofs.v
theories/Tcv_Proofs2.v
theories/Tcv_Proofs3.v
theories/Tcv_Props.v
theories/Tcv_Spec.v
theories/Tdb_Model.v
theories/Tdb_Proofs.v
theories/Tdb_Proofs2.v
theories/Tdb_Props.v
theories/Tdb_Spec.v
theories/Tds_Model.v
theories/Tds_Proofs.v
theories/Tds_Props.v
theories/Tds_Spec.v
theories/ThreadPool_Model.v
theories/ThreadPool_Props.v
theories/Timeout_Model.v
theories/Timeout_Props.v
theories/Timeout_Spec.v
theories/Token_Model.v
theories/Token_Proofs.v
theories/Token_Props.v
theories/Token_Spec.v
theories/TrigBroker_Model.v
theories/TrigBroker_Proofs.v
theories/TrigBroker_Props.v
theories/Txt_Model.v
theories/Txt_Proofs.v
theories/Txt_Props.v
theories/Vbt_Model.v
theories/Vbt_Proofs.v
theories/Vbt_Props.v
theories/Vbt_Spec.v
theories/Web_Model.v
theories/Web_Proofs.v
theories/Web_Proofs2.v
theories/Web_Props.v
theories/Web_Spec.v
