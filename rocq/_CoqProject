-Q theories Verif
theories/Base.v
theories/CommandModel.v
theories/CommandSpec.v
theories/CommandProofs.v
theories/CommandProps.v
theories/PipelineModel.v
theories/PipelineSpec.v
theories/PipelineProofs.v
theories/PipelineProps.v
theories/PipelineSeqModel.v
theories/PipelineSeqProps.v
theories/RunOptionsModel.v
theories/RouteSpec.v
theories/RouteProofs.v
theories/RouteProofs2.v
theories/RouteProps.v
theories/Utf8Model.v
theories/Utf8Spec.v
theories/Utf8Proofs.v
theories/Utf8Props.v
theories/CopyModel.v
theories/CopySpec.v
theories/CopyProofs.v
theories/CopyProofs2.v
theories/CopyProps.v
theories/ResultModel.v
theories/ResultSpec.v
theories/ResultProofs.v
theories/ResultProps.v
theories/AsyncModel.v
theories/AsyncSpec.v
theories/AsyncProofs.v
theories/HarvestModel.v
theories/HarvestProofs.v
theories/HarvestSpec.v
theories/HarvestProofs2.v
theories/HarvestProps.v
theories/AsyncInv.v
theories/RunnerModel.v
theories/RunnerSpec.v
theories/RunnerProofs.v
theories/RunnerProofs2.v
theories/RunnerProofs3.v
theories/RunnerProofs4.v
theories/RunnerProofs5.v
theories/RunnerProofs6.v
theories/RunnerProofs7.v
theories/RunnerProofs8.v
theories/RunnerProofs9.v
theories/RunnerProofs10.v
theories/RunnerProofs11.v
theories/RunTac.v
theories/RunnerProps.v
theories/AuditModel.v
theories/AuditProofs.v
theories/AuditProofs2.v
theories/AuditProps.v
theories/FdSpec.v
theories/FdModel.v
theories/FdProofs.v
theories/FdProps.v
theories/CloseProps.v
theories/PipeRunnerModel.v
theories/PipeRunnerProofs.v
theories/PipeRunnerProofs2.v
theories/PipeRunnerProps.v
theories/EarlyCancelProofs.v
theories/EarlyCancelProps.v
theories/PipeFdSpec.v
theories/PipeFdProofs.v
theories/PipeFdProps.v
theories/AsyncInv2.v
theories/RegexModel.v
theories/PromptModel.v
theories/PromptSpec.v
theories/RegexProofs.v
theories/PromptProofs.v
theories/PromptProofs2.v
theories/PromptProofs3.v
theories/PromptProofs4.v
theories/PromptProofs5.v
theories/PromptProofs6.v
theories/PromptProofs7.v
theories/PromptProps.v
theories/PromptProps2.v
theories/ContextModel.v
theories/ContextProofs.v
theories/ContextProps.v
theories/UninterruptedProofs.v
theories/UninterruptedProps.v
theories/EPollModel.v
theories/EPollProofs.v
theories/EPollProofs2.v
theories/EPollProofs3.v
theories/EPollProofs4.v
theories/EPollProofs5.v
theories/EPollProofs6.v
theories/EPollProofs7.v
theories/EPollProps.v
theories/EPollExamples.v
theories/ThreadWatchModel.v
theories/ThreadWatchProps.v
theories/DefaultWatchModel.v
theories/DefaultWatchProps.v
theories/PtyModel.v
theories/PtyProps.v
theories/LogModel.v
theories/LogProps.v
theories/IterModel.v
theories/IterProofs.v
theories/IterProofs2.v
theories/IterProps.v
theories/PromptRunProps.v
theories/AwaitModel.v
theories/AwaitProofs.v
theories/AwaitProps.v
theories/PipeIterModel.v
theories/PipeIterProofs.v
theories/PipeIterProps.v
theories/IterEncProps.v
theories/IterCommandModel.v
theories/IterCommandProofs.v
theories/IterCommandProps.v
theories/PipeIterCommandModel.v
theories/PipeIterCommandProps.v
theories/PipePromptCommandModel.v
theories/PipePromptCommandProps.v
theories/PipePromptProps.v
theories/PromptWriteProps.v
theories/HarvestPromptProps.v
theories/KQueueModel.v
theories/KQueueSpec.v
theories/KQueueProofs.v
theories/KQueueProofs2.v
theories/KQueueProofs3.v
theories/KQueueProofs4.v
theories/KQueueProofs5.v
theories/KQueueProps.v
theories/PipeAwaitModel.v
theories/PipeReqProofs.v
theories/PipeAwaitProofs.v
theories/PipeAwaitProofs2.v
theories/PipeAwaitProps.v
theories/PtyStreamModel.v
theories/PtyStreamProofs.v
theories/PtyStreamProofs2.v
theories/PtyStreamProofs3.v
theories/PtyStreamProps.v
theories/FlowModel.v
theories/FlowSpec.v
theories/FlowProofs.v
theories/FlowProofs2.v
theories/FlowProofs3.v
theories/FlowProofs4.v
theories/FlowProofs5.v
theories/FlowProps.v
theories/TasksProofs.v
theories/TasksProofs2.v
theories/TasksProps.v
theories/SubstSpec.v
theories/SubstProps.v
theories/SubstAwaitModel.v
theories/SubstAwaitProps.v
theories/CmdContextModel.v
theories/CmdContextSpec.v
theories/CmdContextProps.v
theories/EncodingModel.v
theories/EncodingSpec.v
theories/EncodingProofs.v
theories/EncodingProofs2.v
theories/EncodingProps.v
theories/PositionProps.v
theories/PromptProps3.v
theories/PromptCommandModel.v
theories/PromptCommandProps.v
theories/EPollProps2.v
theories/PassFdsModel.v
theories/PassFdsProps.v
theories/IgnoreModel.v
theories/IgnoreProps.v
theories/BsdWaitModel.v
theories/BsdWaitProps.v
theories/BsdRunModel.v
theories/BsdRunProofs.v
theories/BsdRunProofs2.v
theories/BsdRunProofs3.v
theories/BsdRunProps.v
