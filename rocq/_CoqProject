-Q theories Verif
theories/Base.v
theories/Pack.v
theories/Fifo_Model.v
theories/Fifo_Spec.v
theories/Fifo_Proofs.v
theories/FifoThread_Proofs.v
theories/Fifo_Props.v
theories/Skid_Model.v
theories/Skid_Spec.v
theories/Skid_Proofs.v
theories/Skid_Props.v
theories/Ram_Model.v
theories/Ram_Spec.v
theories/Ram_Proofs.v
theories/Ram_Props.v
theories/Skid_Pack_Props.v
theories/Vlog.v
theories/Seq_Model.v
theories/Seq_Spec.v
theories/Seq_Proofs.v
theories/SeqAny_Proofs.v
theories/SeqTime_Proofs.v
theories/Seq_Props.v
theories/Fsm_Model.v
theories/Fsm_Spec.v
theories/Fsm_Proofs.v
theories/FsmStmt_Proofs.v
theories/Fsm_Props.v
theories/Py_Spec.v
theories/Py_Proofs.v
theories/Comp_Model.v
theories/Bv_Sem.v
theories/Comp_Bits.v
theories/Bv_Run.v
theories/Comp_Base.v
theories/Comp_Frag.v
theories/Comp_Expr.v
theories/Comp_Stmt.v
theories/Comp_Loop.v
theories/Comp_Call.v
theories/Comp_Run.v
theories/Comp_Props.v
theories/AxiChan_Model.v
theories/AxiChan_Spec.v
theories/AxiChan_Proofs.v
theories/AxiChan_Props.v
theories/AxiDma_Model.v
theories/AxiDma_Spec.v
theories/AxiDma_Proofs.v
theories/AxiDma_Props.v
theories/AxiData_Model.v
theories/AxiData_Spec.v
theories/AxiData_Proofs.v
theories/AxiData_Props.v
theories/AxiSlave_Model.v
theories/AxiSlave_Spec.v
theories/AxiSlave_Proofs.v
theories/AxiSlave_Props.v
theories/Mutex_Model.v
theories/Mutex_Spec.v
theories/Mutex_Proofs.v
theories/Mutex_Props.v
theories/Barrier_Model.v
theories/Barrier_Spec.v
theories/Barrier_Proofs.v
theories/Barrier_Props.v
theories/Bits.v
theories/Mult_Model.v
theories/Mult_Spec.v
theories/Mult_Proofs.v
theories/Mult_Props.v
theories/Div_Model.v
theories/Div_Spec.v
theories/Div_Proofs.v
theories/Div_Props.v
theories/Stream_Model.v
theories/Stream_Spec.v
theories/Stream_Proofs.v
theories/Stream_Props.v
theories/Reduce_Model.v
theories/Reduce_Spec.v
theories/Reduce_Proofs.v
theories/Reduce_Props.v
theories/Tree_Model.v
theories/Tree_Spec.v
theories/Tree_Proofs.v
theories/Tree_Props.v
theories/Buffer_Model.v
theories/Buffer_Spec.v
theories/Buffer_Proofs.v
theories/Buffer_Props.v
theories/Vx_Model.v
theories/Vx_Sem.v
theories/Vx_Spec.v
theories/Vx_Proofs.v
theories/Vx_Props.v
theories/Res_Model.v
theories/Res_Spec.v
theories/Res_Proofs.v
theories/Res_Props.v
theories/Ren_Model.v
theories/Ren_Spec.v
theories/Ren_Proofs.v
theories/Ren_Props.v
theories/Lit_Model.v
theories/Lit_Spec.v
theories/Lit_Proofs.v
theories/Lit_Props.v
theories/Mod_Model.v
theories/Mod_Spec.v
theories/Mod_Proofs.v
theories/Mod_Props.v
theories/Sat_Model.v
theories/Sat_Spec.v
theories/Sat_Proofs.v
theories/Sat_Props.v
theories/Fix_Model.v
theories/Fix_Spec.v
theories/Fix_Proofs.v
theories/Fix_Props.v
theories/Pipe_Model.v
theories/Pipe_Spec.v
theories/Pipe_Proofs.v
theories/Pipe_Props.v
theories/Uart_Model.v
theories/Uart_Spec.v
theories/Uart_Proofs.v
theories/Uart_Props.v
theories/Thr_Model.v
theories/Thr_Spec.v
theories/Thr_Proofs.v
theories/Thr_Acts.v
theories/Thr_Props.v
theories/Pat_Model.v
theories/Pat_Spec.v
theories/Pat_Proofs.v
theories/Pat_Multi.v
theories/Pat_Sink.v
theories/Pat_Lin.v
theories/Pat_Props.v
theories/Rw_Model.v
theories/Rw_Spec.v
theories/Rw_Proofs.v
theories/Rw_Stable.v
theories/Rw_Props.v
theories/AxiMem_Model.v
theories/AxiMem_Spec.v
theories/AxiMem_Proofs.v
theories/AxiMem_Live.v
theories/AxiMem_Main.v
theories/AxiMem_Props.v
theories/AxiMemWord_Model.v
theories/AxiMemWord_Spec.v
theories/AxiMemWord_Proofs.v
theories/AxiMemWord_Props.v
theories/AxiPorts_Model.v
theories/AxiPorts_Spec.v
theories/AxiPorts_Proofs.v
theories/AxiPorts_Props.v
theories/AxisIn_Model.v
theories/AxisIn_Spec.v
theories/AxisIn_Proofs.v
theories/AxisIn_Props.v
theories/AxisInFifo_Model.v
theories/AxisInFifo_Spec.v
theories/AxisInFifo_Proofs.v
theories/AxisInFifo_Props.v
theories/AxisOutFifo_Model.v
theories/AxisOutFifo_Spec.v
theories/AxisOutFifo_Proofs.v
theories/AxisOutFifo_Props.v
theories/FifoCalls_Model.v
theories/FifoCalls_Spec.v
theories/FifoCalls_Proofs.v
theories/FifoCalls_Props.v
theories/AxisOut_Model.v
theories/AxisOut_Spec.v
theories/AxisOut_Proofs.v
theories/AxisOut_Props.v
theories/Dflow_Model.v
theories/Dflow_Spec.v
theories/Dflow_Proofs.v
theories/Dflow_Props.v
theories/Dsched_Model.v
theories/Dsched_Spec.v
theories/Dsched_Proofs.v
theories/Dsched_Props.v
theories/Dacc_Model.v
theories/Dacc_Spec.v
theories/Dacc_Proofs.v
theories/Dacc_Props.v
theories/Srun_Model.v
theories/Srun_Spec.v
theories/Srun_Proofs.v
theories/Srun_Props.v
theories/Sop_Model.v
theories/Sop_Spec.v
theories/Sop_Proofs.v
theories/Sop_Props.v
theories/Dop_Model.v
theories/Dop_Spec.v
theories/Dop_Proofs.v
theories/Dop_Props.v
theories/AxisLite_Model.v
theories/AxisLite_Spec.v
theories/AxisLite_Proofs.v
theories/AxisLite_Props.v
theories/AximLite_Model.v
theories/AximLite_Spec.v
theories/AximLite_Proofs.v
theories/AximLite_Props.v
theories/Block_Model.v
theories/Block_Spec.v
theories/Block_Proofs.v
theories/Block_Props.v
theories/Packed_Model.v
theories/Packed_Spec.v
theories/Packed_Proofs.v
theories/Packed_Props.v
theories/Sstate_Model.v
theories/Sstate_Spec.v
theories/Sstate_Proofs.v
theories/Sstate_Props.v
theories/Seval_Model.v
theories/Seval_Spec.v
theories/Seval_Proofs.v
theories/Seval_Props.v
theories/Rdiv_Model.v
theories/Rdiv_Spec.v
theories/Rdiv_Proofs.v
theories/Rdiv_Props.v
theories/Mover_Model.v
theories/Mover_Spec.v
theories/Mover_Proofs.v
theories/Mover_Props.v
theories/Smem_Model.v
theories/Smem_Spec.v
theories/Smem_Proofs.v
theories/Smem_Props.v
theories/Submod_Model.v
theories/Submod_Spec.v
theories/Submod_Proofs.v
theories/Submod_Props.v
