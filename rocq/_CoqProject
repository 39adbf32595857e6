-Q theories Verif
theories/Base.v
theories/ListLib.v
theories/GoMap.v
theories/TagModel.v
theories/TagSpec.v
theories/TagProofs.v
theories/TagProps.v
theories/Text.v
theories/TracestateModel.v
theories/TracestateSpec.v
theories/TracestateProofs.v
theories/TracestateProps.v
theories/TraceTypes.v
theories/Float64.v
theories/PropagationModel.v
theories/PropagationSpec.v
theories/PropagationProofs.v
theories/PropagationProps.v
theories/AggModel.v
theories/AggSpec.v
theories/AggProofs.v
theories/AggProps.v
theories/GoSort.v
theories/TagEncodingModel.v
theories/TagEncodingProofs.v
theories/CollectorModel.v
theories/CollectorSpec.v
theories/CollectorProofs.v
theories/CollectorProps.v
theories/ViewModel.v
theories/WorkerModel.v
theories/WorkerSpec.v
theories/ViewProofs.v
theories/WorkerProofs.v
theories/WorkerProps.v
theories/SliceViewModel.v
theories/SliceViewSpec.v
theories/SliceViewProofs.v
theories/SliceViewProps.v
theories/RecordAliasModel.v
theories/RecordAliasProps.v
theories/RecordModel.v
theories/RecordProps.v
theories/QueueModel.v
theories/QueueSpec.v
theories/QueueProofs.v
theories/QueueProps.v
theories/MetricModel.v
theories/MetricSpec.v
theories/MetricProofs.v
theories/MetricProps.v
theories/FloatAdd.v
theories/MetricConcModel.v
theories/MetricConcSpec.v
theories/MetricConcProofs.v
theories/MetricConcProps.v
theories/MetricAddProps.v
theories/TraceModel.v
theories/SpanStoreModel.v
theories/SpanStoreSpec.v
theories/SpanStoreProofs.v
theories/TracerModel.v
theories/TracerSpec.v
theories/TraceProofs.v
theories/TracerProofs.v
theories/SpanStoreProps.v
theories/TracerProps.v
theories/IdGenModel.v
theories/IdGenProps.v
theories/SamplerProps.v
theories/DefaultSamplingProps.v
theories/ExporterModel.v
theories/ExporterProps.v
theories/Utf8.v
theories/ResourceModel.v
theories/ResourceSpec.v
theories/ResourceProofs.v
theories/ResourceProps.v
theories/ResourceEnvProps.v
theories/ResourceAcceptProps.v
theories/ReaderModel.v
theories/ReaderSpec.v
theories/ReaderProofs.v
theories/ReaderProps.v
theories/HttpModel.v
theories/HttpSpec.v
theories/HttpProofs.v
theories/HttpProps.v
theories/HttpTraceProps.v
theories/HttpServerProps.v
theories/GrpcModel.v
theories/GrpcSpec.v
theories/GrpcProofs.v
theories/GrpcProps.v
theories/GrpcTraceProps.v
theories/FloatInt.v
theories/ZpagesModel.v
theories/ZpagesSpec.v
theories/ZpagesProofs.v
theories/ZpagesProps.v
theories/ZpagesTextModel.v
theories/ZpagesTextSpec.v
theories/ZpagesTextProps.v
theories/FloatErr.v
theories/ZpagesNumModel.v
theories/ZpagesNumSpec.v
theories/ZpagesNumProps.v
theories/CallbackModel.v
theories/CallbackSpec.v
theories/CallbackProps.v
theories/SpanAliasModel.v
theories/SpanAliasSpec.v
theories/SpanAliasProps.v
theories/RowEqualModel.v
theories/RowEqualSpec.v
theories/RowEqualProps.v
theories/RpczProps.v
theories/RunmetricsModel.v
theories/RunmetricsSpec.v
theories/RunmetricsProofs.v
theories/RunmetricsProps.v
theories/ProcessModel.v
theories/ProcessSpec.v
theories/ProcessProofs.v
theories/ProcessProps.v
theories/GrpcProcModel.v
theories/GrpcProcSpec.v
theories/GrpcProcProofs.v
theories/GrpcViewProofs.v
theories/FloatDiv.v
theories/GrpcProcProps.v
theories/HttpProcModel.v
theories/HttpProcSpec.v
theories/HttpProcProofs.v
theories/HttpViewProofs.v
theories/HttpProcProps.v
theories/TestExporterModel.v
theories/TestExporterSpec.v
theories/TestExporterProofs.v
theories/TestExporterProps.v
theories/ClientTraceModel.v
theories/ClientTraceSpec.v
theories/ClientTraceProps.v
theories/MeterStepModel.v
theories/MeterStepSpec.v
theories/MeterStepProofs.v
theories/MeterStepProps.v
theories/MeasureModel.v
theories/MeasureSpec.v
theories/MeasureProofs.v
theories/MeasureProps.v
theories/TraceRaceModel.v
theories/TraceRaceSpec.v
theories/TraceRaceProps.v
theories/MeterRaceModel.v
theories/MeterRaceSpec.v
theories/MeterRaceProps.v
theories/MetricUpsertSpec.v
theories/MetricUpsertProps.v
theories/IntSumSpec.v
theories/IntSumProps.v
theories/TagApiModel.v
theories/TagApiSpec.v
theories/TagApiProps.v
theories/MonotoneSpec.v
theories/MonotoneProofs.v
theories/MonotoneProps.v
theories/ZMuxModel.v
theories/ZMuxSpec.v
theories/ZMuxProps.v
theories/ZMuxMoreProps.v
theories/WholeTraceSpec.v
theories/WholeTraceProps.v
theories/MeanSpec.v
theories/MeanProofs.v
theories/MeanProps.v
theories/SsdSpec.v
theories/SsdProofs.v
theories/SsdProps.v
theories/SumErrProps.v
theories/CustomViewSpec.v
theories/CustomViewProps.v
