{"id": "C01", "title": "NewMatrix builds a fresh zero matrix or reports an error", "statement": "NewMatrix(rows, cols) returns an error exactly when rows < 1 or cols < 1 and then allocates nothing; otherwise it returns a rows x cols matrix whose every entry is 0, whose rows are pairwise distinct storage shared with no existing matrix, and it changes no existing data.", "quantifier": "all integers rows, cols; all program states", "why_tests_cant": "a unit test samples a few sizes and values; the claim ranges over all of them and aliasing with every earlier allocation cannot be sampled", "anchors": ["matrix.go:NewMatrix"]}
{"id": "C02", "title": "NewMatrixFromSlice wraps the caller's slice", "statement": "NewMatrixFromSlice(s) succeeds exactly when s has at least one row and its first row is non-empty; the result has Rows=len(s), Cols=len(s[0]) and shares storage with s, so a later write through either is visible through the other. A nil error does not guarantee a rectangular matrix: on a ragged slice the result can panic on an in-range Get (refuted guarantee).", "quantifier": "all slices of slices, all later writes", "why_tests_cant": "a unit test samples a few sizes and values; the claim ranges over all of them", "anchors": ["matrix.go:NewMatrixFromSlice", "matrix.go:Matrix.Get"]}
{"id": "C03", "title": "Get/Set behave like an array cell with bounds errors", "statement": "On a well-formed matrix, Set(i,j,v) with in-range i,j followed by Get(i,j) yields v and every other cell of every matrix keeps its value; indices at or above the bounds give an error and change nothing. A negative index is not reported as an error: it panics (refuted guarantee).", "quantifier": "all well-formed matrices with distinct rows, all integers i, j, all values", "why_tests_cant": "a unit test samples a few sizes and values; the claim ranges over all of them", "anchors": ["matrix.go:Matrix.Get", "matrix.go:Matrix.Set"]}
{"id": "C04", "title": "Row and column accessors: which copy and which alias", "statement": "GetRow returns the live row (writes through it change the matrix); GetColumn returns an independent copy of the column; SetRow installs the caller's slice itself (later writes to it change the matrix) and only checks its length; SetColumn copies values into the column. Wrong lengths or too large indices give an error and change nothing.", "quantifier": "all matrices, all rows/columns, all value slices", "why_tests_cant": "a unit test samples a few sizes and values; the claim ranges over all of them", "anchors": ["matrix.go:GetRow", "matrix.go:GetColumn", "matrix.go:SetRow", "matrix.go:SetColumn"]}
{"id": "C05", "title": "Element-wise arithmetic is correct and pure", "statement": "Add, Sub, Neg, AddScalar, MulScalar and PowScalar return a fresh matrix of the same shape whose (i,j) entry is the operation applied to the operands' (i,j) entries, and leave every existing matrix unchanged; Add and Sub return an error exactly on a shape mismatch.", "quantifier": "all matrices, shapes, scalars and number semantics (IEEE-754 included)", "why_tests_cant": "a unit test samples a few sizes and values; the claim ranges over all of them", "anchors": ["matrix.go:Add", "matrix.go:Sub", "matrix.go:Neg", "matrix.go:AddScalar", "matrix.go:MulScalar", "matrix.go:PowScalar"]}
{"id": "C06", "title": "Dot is the matrix product", "statement": "m.Dot(b) returns an error exactly when m.Cols != b.Rows; otherwise a fresh m.Rows x b.Cols matrix whose (i,j) entry is the left-to-right sum over n of m[i][n]*b[n][j] starting from 0; operands are unchanged. In exact arithmetic it is associative and distributes over Add.", "quantifier": "all matrices of compatible and incompatible shapes", "why_tests_cant": "a unit test samples a few sizes and values; the claim ranges over all of them", "anchors": ["matrix.go:Dot"]}
{"id": "C07", "title": "Transpose", "statement": "T() returns a fresh matrix with T(m)[j][i] = m[i][j]; transposing twice gives back a matrix with the same contents; the transpose of a product is the product of the transposes in reverse order (whenever multiplication commutes).", "quantifier": "all well-formed matrices", "why_tests_cant": "a unit test samples a few sizes and values; the claim ranges over all of them", "anchors": ["matrix.go:T", "matrix.go:Dot"]}
{"id": "C08", "title": "Axis sums", "statement": "Sum(0) returns the fresh 1 x Cols matrix of column sums and Sum(1) the fresh 1 x Rows matrix of row sums (left-to-right from 0); any other axis panics; the receiver is unchanged.", "quantifier": "all well-formed matrices, all integers axis", "why_tests_cant": "a unit test samples a few sizes and values; the claim ranges over all of them", "anchors": ["matrix.go:Sum"]}
{"id": "C09", "title": "Equals", "statement": "Equals returns true exactly when both shapes coincide and all corresponding entries compare ==. It is symmetric, changes nothing, and is reflexive on every matrix without NaN; it is not reflexive when some entry is NaN.", "quantifier": "all pairs of well-formed matrices", "why_tests_cant": "a unit test samples a few sizes and values; the claim ranges over all of them", "anchors": ["matrix.go:Equals"]}
{"id": "C10", "title": "In-place operations touch only their argument", "statement": "Clip, RELU, RELUPrime, Sigmoid, SigmoidPrime, LeakyRELU, LeakyRELUPrime, Softmax and OutputBinaryValues overwrite their first argument and return that same storage; no other matrix changes. (So the caller's matrix is modified.)", "quantifier": "all matrices with distinct rows; all other live matrices", "why_tests_cant": "a unit test samples a few sizes and values; the claim ranges over all of them and non-interference quantifies over every other live matrix", "anchors": ["matrix.go:Clip", "activation.go", "misc.go:OutputBinaryValues"]}
{"id": "C11", "title": "One-hot encoding", "statement": "SparseToOneHot(X,size) returns an error exactly when size <= 0; if every label int(X[i][0]) lies in [0,size) row i of the result is 1 at that label and 0 elsewhere and X is unchanged; a label outside the range panics instead of returning an error.", "quantifier": "all label matrices and sizes", "why_tests_cant": "a unit test samples a few sizes and values; the claim ranges over all of them", "anchors": ["misc.go:SparseToOneHot"]}
{"id": "C12", "title": "RowMax is the first arg-max for rows with a positive entry", "statement": "RowMax(X) returns Rows x 1; if row i has a positive entry the result is the least index of a maximal entry. If no entry of the row is positive it returns index 0 even when 0 is not the arg-max (refuted for all-negative rows).", "quantifier": "all matrices over a totally ordered number system; also binary64 rows without NaN", "why_tests_cant": "a unit test samples a few sizes and values; the claim ranges over all of them", "anchors": ["misc.go:RowMax"]}
{"id": "C13", "title": "Binary thresholding", "statement": "OutputBinaryValues replaces each entry x by 0 if x < 0.5 and by 1 otherwise (so NaN becomes 1), in place; it is idempotent.", "quantifier": "all matrices", "why_tests_cant": "a unit test samples a few sizes and values; the claim ranges over all of them", "anchors": ["misc.go:OutputBinaryValues"]}
{"id": "C14", "title": "Shuffling keeps samples paired", "statement": "ShuffleDataset(X,Y) with Y having as many rows as X applies one and the same permutation to the rows of X and Y, whatever random numbers are drawn; no row content changes, nothing else changes.", "quantifier": "all datasets, all random sequences", "why_tests_cant": "the outcome depends on the random source; tests see a few shuffles", "anchors": ["misc.go:ShuffleDataset"]}
{"id": "C15", "title": "Accuracies are fractions of correct samples", "statement": "RegressionAccuracy, CategoricalAccuracy and BinaryCategoricalAccuracy equal (number of correct entries)/(number of entries), so they lie in [0,1] for non-empty data, in binary64 as well; a prediction equal to a one-hot label matrix gets accuracy 1. BinaryCategoricalAccuracy overwrites yHat; the others change nothing.", "quantifier": "all prediction/label matrices of equal shape", "why_tests_cant": "a unit test samples a few sizes and values; the claim ranges over all of them", "anchors": ["accuracy.go", "misc.go:RowMax"]}
{"id": "C16", "title": "ReLU and leaky ReLU", "statement": "RELU maps each entry x to max(x,0): no output is negative and it is idempotent; LeakyRELU maps x to x if x>=0 and to slope*x otherwise.", "quantifier": "all matrices and slopes", "why_tests_cant": "a unit test samples a few sizes and values; the claim ranges over all of them", "anchors": ["activation.go:RELU", "activation.go:LeakyRELU"]}
{"id": "C17", "title": "Sigmoid", "statement": "Sigmoid maps each entry to 1/(1+exp(-x)); in exact arithmetic every output is strictly between 0 and 1 and increasing in x; SigmoidPrime on equally shaped arguments gives dValues times the derivative of the sigmoid.", "quantifier": "all matrices", "why_tests_cant": "a unit test samples a few sizes and values; the claim ranges over all of them", "anchors": ["activation.go:Sigmoid", "activation.go:SigmoidPrime"]}
{"id": "C18", "title": "Softmax rows are probability distributions", "statement": "In exact arithmetic every row of Softmax is positive, sums to 1, preserves the order of the inputs and is invariant under adding a constant to the row. In binary64 this fails for large inputs: if exp overflows to +Inf the row contains NaN (refuted in binary64).", "quantifier": "all matrices; all exp implementations that overflow", "why_tests_cant": "a unit test samples a few sizes and values; the claim ranges over all of them", "anchors": ["activation.go:Softmax"]}
{"id": "C19", "title": "Clip range", "statement": "After Clip every entry lies in [0,1] and entries already in [0,1] are unchanged; Clip is idempotent. It does not keep entries away from 0 and 1: 0 and 1 are left as they are, so log(Clip(x)) and log(1-Clip(x)) can be infinite (refuted strictness).", "quantifier": "all matrices (no NaN for the range claim)", "why_tests_cant": "a unit test samples a few sizes and values; the claim ranges over all of them", "anchors": ["matrix.go:Clip"]}
{"id": "C20", "title": "Constructors validate their arguments", "statement": "NewLayer, NewLinearLayer, NewSigmoidLayer, NewLeakyLayer, NewSoftmaxLayer, NewDropoutLayer return an error exactly when a size is < 1, the slope is < 0 or the dropout is outside [0,1]; otherwise the layer has the requested sizes, an InputSize x OutputSize zero weight matrix and 1 x OutputSize zero bias matrix in fresh storage. New*Loss return an error exactly when size < 1. NewSGDOptimizer / NewAdamOptimizer return an error exactly for learningRate <= 0, decay < 0 or (SGD) momentum < 0.", "quantifier": "all arguments", "why_tests_cant": "a unit test samples a few sizes and values; the claim ranges over all of them", "anchors": ["network.go:New*Layer", "loss.go:New*Loss", "optimizers.go:New*Optimizer"]}
{"id": "C21", "title": "Layer forward pass formula", "statement": "For each layer kind, Forward(x) returns an error exactly when x.Cols != InputSize; otherwise a fresh x.Rows x OutputSize matrix equal to activation(x*W + b) with the activation of that kind; x, the weights and the biases are unchanged.", "quantifier": "all layers of the six kinds, all inputs", "why_tests_cant": "a unit test samples a few sizes and values; the claim ranges over all of them", "anchors": ["network.go:*.Forward", "network.go:DropoutLayer.ForwardNoDropout"]}
{"id": "C22", "title": "Inference treats samples independently", "statement": "Row i of Model.Forward(X, false) (and of Predict) equals the result of running the model on row i of X alone: batching never changes a prediction, bit for bit.", "quantifier": "all models, all batches, all number semantics", "why_tests_cant": "a unit test samples a few sizes and values; the claim ranges over all of them", "anchors": ["model.go:Model.Forward", "model.go:Model.Predict"]}
{"id": "C23", "title": "Backward pass shapes and effects", "statement": "For every layer except SigmoidLayer, Backward after a Forward on the same input returns gradients with the shapes of weights, biases and input, all fresh, and changes neither x, weights nor biases. Hidden, leaky and dropout layers overwrite the dValues argument.", "quantifier": "all layers, inputs and upstream gradients", "why_tests_cant": "a unit test samples a few sizes and values; the claim ranges over all of them", "anchors": ["network.go:*.Backward"]}
{"id": "C24", "title": "LinearLayer gradients are exact derivatives", "statement": "In exact arithmetic LinearLayer.Backward returns the vector-Jacobian product of Forward with dValues: for every differentiable curve of weights, biases and inputs, <dValues, d out> = <dW, d weights> + <dB, d biases> + <dX, d input>.", "quantifier": "all sizes, weights, inputs, directions", "why_tests_cant": "a unit test samples a few sizes and values; the claim ranges over all of them", "anchors": ["network.go:LinearLayer.Backward", "network.go:LinearLayer.Forward"]}
{"id": "C25", "title": "HiddenLayer gradients are exact derivatives", "statement": "In exact arithmetic HiddenLayer.Backward after Forward returns the vector-Jacobian product of Forward at every point where no pre-activation is exactly 0, although the saved pre-activations alias the activated output.", "quantifier": "all sizes, weights, inputs with non-zero pre-activations, directions", "why_tests_cant": "a unit test samples a few sizes and values; the claim ranges over all of them", "anchors": ["network.go:HiddenLayer.Backward"]}
{"id": "C26", "title": "LeakyLayer gradients are exact derivatives for positive slope", "statement": "In exact arithmetic LeakyLayer.Backward after Forward is the vector-Jacobian product of Forward for slope > 0 away from pre-activation 0. For slope 0 (accepted by NewLeakyLayer) it is wrong: the gradient is not blocked on negative pre-activations (refuted).", "quantifier": "all sizes, weights, inputs, slopes", "why_tests_cant": "a unit test samples a few sizes and values; the claim ranges over all of them", "anchors": ["network.go:LeakyLayer.Backward", "activation.go:LeakyRELUPrime"]}
{"id": "C27", "title": "SoftmaxLayer gradients are exact derivatives", "statement": "In exact arithmetic SoftmaxLayer.Backward after Forward returns the vector-Jacobian product of Forward.", "quantifier": "all sizes, weights, inputs, directions", "why_tests_cant": "a unit test samples a few sizes and values; the claim ranges over all of them", "anchors": ["network.go:SoftmaxLayer.Backward"]}
{"id": "C28", "title": "Fused softmax/cross-entropy gradient", "statement": "For one-hot labels, BackwardCrossEntropy(x,y,out) with out the softmax output returns exactly what CrossEntropyLoss.Backward followed by SoftmaxLayer.Backward returns (exact arithmetic), i.e. the gradient of the mean cross-entropy. For labels that are not one-hot the two differ (refuted).", "quantifier": "all sizes, all one-hot labels", "why_tests_cant": "a unit test samples a few sizes and values; the claim ranges over all of them", "anchors": ["network.go:SoftmaxLayer.BackwardCrossEntropy", "loss.go:CrossEntropyLoss"]}
{"id": "C29", "title": "SigmoidLayer.Backward is not the gradient", "statement": "SigmoidLayer.Backward should return the vector-Jacobian product and leave its input alone. It does not: it overwrites the input matrix x, panics whenever InputSize > OutputSize, and for equal sizes returns dW = G^T G for the overwritten input G (refuted).", "quantifier": "all sizes with InputSize > OutputSize; witness for the rest", "why_tests_cant": "a unit test samples a few sizes and values; the claim ranges over all of them", "anchors": ["network.go:SigmoidLayer.Backward", "activation.go:SigmoidPrime"]}
{"id": "C30", "title": "Dropout semantics", "statement": "In training each output of DropoutLayer.Forward is either 0 or relu(z)/(1-dropout), decided by one uniform draw per output (kept with probability 1-dropout); with training=false the model uses no dropout and draws no random numbers. With dropout=0 training and inference outputs agree in exact arithmetic. With dropout=1 (accepted by the constructor) every training output is NaN in binary64 (refuted).", "quantifier": "all layers, inputs, random sequences", "why_tests_cant": "behaviour depends on every random draw", "anchors": ["network.go:DropoutLayer.Forward", "network.go:DropoutLayer.ForwardNoDropout", "binomial.go:Rand", "model.go:Model.Forward"]}
{"id": "C31", "title": "Dropout gradient misses its scale", "statement": "DropoutLayer.Backward returns (1-dropout) times the vector-Jacobian product of the Forward that was executed; it is the true gradient only for dropout = 0 (refuted otherwise).", "quantifier": "all sizes, weights, inputs, masks, directions", "why_tests_cant": "a unit test samples a few sizes and values; the claim ranges over all of them", "anchors": ["network.go:DropoutLayer.Backward"]}
{"id": "C32", "title": "Init randomises weights only", "statement": "Init overwrites exactly the InputSize x OutputSize weights of that layer with (normal draw)*sqrt(2/InputSize) and leaves biases, sizes and all other layers alone.", "quantifier": "all layers, random sequences", "why_tests_cant": "depends on every random draw", "anchors": ["network.go:*.Init", "model.go:InitLayers"]}
{"id": "C33", "title": "Loss values", "statement": "CrossEntropyLoss.Forward is the mean over rows of -log(sum_j clip(yhat)[i][j]*y[i][j]); BinaryCrossEntropyLoss.Forward is the mean over entries of the binary cross-entropy. MeanSquaredLoss.Forward and MeanAbsoluteLoss.Forward return the mean squared / absolute error of the FIRST row only, so CalculateLoss is not the average loss over the data set for these (refuted).", "quantifier": "all predictions and labels", "why_tests_cant": "a unit test samples a few sizes and values; the claim ranges over all of them", "anchors": ["loss.go:*.Forward", "model.go:CalculateLoss"]}
{"id": "C34", "title": "Loss gradients are derivatives of the loss", "statement": "In exact arithmetic MeanSquaredLoss.Backward is the gradient of the sum over rows of the row-wise mean squared error, CrossEntropyLoss.Backward (one-hot labels, predictions in (0,1)) and BinaryCrossEntropyLoss.Backward (predictions in (0,1)) are the gradients of their Forward.", "quantifier": "all sizes, predictions, labels", "why_tests_cant": "a unit test samples a few sizes and values; the claim ranges over all of them", "anchors": ["loss.go:*.Backward"]}
{"id": "C35", "title": "MeanAbsoluteLoss gradient", "statement": "MeanAbsoluteLoss.Backward should be sign(yhat-y)/Cols. It is, for Cols = 1; for every Cols >= 2 integer division makes the whole gradient 0 (refuted).", "quantifier": "all matrices", "why_tests_cant": "a unit test samples a few sizes and values; the claim ranges over all of them", "anchors": ["loss.go:MeanAbsoluteLoss.Backward"]}
{"id": "C36", "title": "Losses are non-negative", "statement": "In exact arithmetic MSE and MAE are >= 0 and are 0 when prediction equals label; CE with one-hot labels and BCE with labels in [0,1] are >= 0 for predictions in (0,1).", "quantifier": "all matrices", "why_tests_cant": "a unit test samples a few sizes and values; the claim ranges over all of them", "anchors": ["loss.go:*.Forward"]}
{"id": "C37", "title": "Losses validate widths, and which arguments they overwrite", "statement": "Every loss Forward/Backward returns an error when yhat.Cols or y.Cols differs from the configured size (or, for MSE/MAE, when shapes differ). MSE, MAE and CrossEntropyLoss.Backward leave yhat and y unchanged; CrossEntropyLoss.Forward and both BinaryCrossEntropyLoss passes overwrite yhat with Clip(yhat). CE/BCE do not compare row counts: fewer label rows than prediction rows panics.", "quantifier": "all matrices", "why_tests_cant": "a unit test samples a few sizes and values; the claim ranges over all of them", "anchors": ["loss.go"]}
{"id": "C38", "title": "SGD without momentum", "statement": "The t-th Update (t=0,1,...) of a SGD optimizer without momentum replaces every weight and bias p by p - lr/(1+decay*t)*gradient and nothing else, for every history of gradients.", "quantifier": "all shapes, all gradient histories", "why_tests_cant": "a unit test samples a few sizes and values; the claim ranges over all of them histories are unbounded", "anchors": ["optimizers.go:SGDOptimizer.Update"]}
{"id": "C39", "title": "SGD with momentum", "statement": "With momentum mu, Update maintains velocity v <- mu*v - lr_t*g starting from 0 and adds v to the parameters, for every history; in exact arithmetic the parameters after n steps are p0 plus the sum of all velocities, and v_n = -sum_k mu^(n-1-k) lr_k g_k.", "quantifier": "all shapes, all gradient histories", "why_tests_cant": "histories are unbounded", "anchors": ["optimizers.go:SGDOptimizer.Update"]}
{"id": "C40", "title": "Adam", "statement": "Update maintains m <- b1*m+(1-b1)*g, c <- b2*c+(1-b2)*g^2 from 0 and subtracts lr_t*(m/(1-b1^(t+1)))/(sqrt(c/(1-b1^(t+1)))+eps), for every history. The cache is corrected with beta1: the result equals standard Adam when beta1 = beta2 and differs otherwise (standard Adam refuted).", "quantifier": "all shapes, all gradient histories", "why_tests_cant": "histories are unbounded", "anchors": ["optimizers.go:AdamOptimizer.Update"]}
{"id": "C41", "title": "A failed Update is not atomic", "statement": "An Update that returns an error should leave the optimizer usable. It does not: a weight-shape error erases the weight momentum, and a bias-shape error with matching weight shape leaves the optimizer permanently failing on every later correct call (refuted).", "quantifier": "all later well-shaped updates", "why_tests_cant": "needs a history: bad call followed by any good calls", "anchors": ["optimizers.go:SGDOptimizer.Update", "optimizers.go:AdamOptimizer.Update"]}
{"id": "C42", "title": "AddLayer keeps the model consistent", "statement": "For every sequence of AddLayer calls on a new model: ModelSize is the number of accepted layers, InputSize is the first layer's input size, OutputSize the last layer's output size, adjacent accepted layers fit, and a rejected layer changes nothing.", "quantifier": "all sequences of AddLayer calls", "why_tests_cant": "unbounded call histories", "anchors": ["model.go:AddLayer", "model.go:NewModel"]}
{"id": "C43", "title": "Finalize", "statement": "Finalize fails when the loss size differs from the model's OutputSize (changing nothing) and otherwise installs the loss, one fresh optimizer per layer with the given hyper-parameters and zero iterations. With a negative accuracy precision it returns an error but has already installed loss and optimizers (refuted atomicity).", "quantifier": "all models, losses, optimizers, precisions", "why_tests_cant": "a unit test samples a few sizes and values; the claim ranges over all of them", "anchors": ["model.go:Finalize", "optimizers.go:NewOptimizerFromType"]}
{"id": "C44", "title": "Model.Forward composes the layers", "statement": "For a consistent model and a matrix with InputSize columns, Forward returns ModelSize+1 matrices: the input itself followed by the successive layer outputs, the k-th having the k-th layer's output width; with a different width it returns an error. Parameters and input are unchanged.", "quantifier": "all models, inputs, both modes", "why_tests_cant": "a unit test samples a few sizes and values; the claim ranges over all of them", "anchors": ["model.go:Model.Forward"]}
{"id": "C45", "title": "Backpropagation is correct for whole networks", "statement": "In exact arithmetic, for a network of linear, hidden, leaky (slope>0), softmax and dropout-0/inference layers, Model.Backward(Model.Forward(X)) returns for each layer (last layer first) the exact gradient of the training objective with respect to that layer's weights and biases, away from ReLU kinks.", "quantifier": "all depths, sizes, parameters, data, directions", "why_tests_cant": "a unit test samples a few sizes and values; the claim ranges over all of them finite-difference tests are approximate", "anchors": ["model.go:Model.Backward"]}
{"id": "C46", "title": "Fit uses every training row exactly once per epoch, in order", "statement": "For batchSize >= 1 the batches of an epoch are contiguous, non-empty, of length at most batchSize, all but the last of length batchSize, and their concatenation is the training set; batchSize 0 uses one batch. Negative batch sizes train on nothing or panic.", "quantifier": "all row counts and batch sizes", "why_tests_cant": "a unit test samples a few sizes and values; the claim ranges over all of them", "anchors": ["model.go:Model.Fit"]}
{"id": "C47", "title": "Training a consistent model never fails", "statement": "Fit on a finalized consistent model without sigmoid layers and with data of matching shape returns nil (no error, no panic) and all weight and bias shapes are preserved, for every number of epochs and batch size >= 0.", "quantifier": "all models, data, epochs, batch sizes, random draws", "why_tests_cant": "all histories of updates", "anchors": ["model.go:Model.Fit"]}
{"id": "C48", "title": "Fit computes exactly mini-batch training", "statement": "The parameters after Fit are those of the abstract procedure: for each epoch, for each batch, compute all layer gradients from the current parameters, then update each layer with its own optimizer; nothing else changes, in particular not X and Y. With a SigmoidLayer first, X is overwritten by training (refuted).", "quantifier": "all models without sigmoid layers, data, epochs, batch sizes", "why_tests_cant": "a unit test samples a few sizes and values; the claim ranges over all of them", "anchors": ["model.go:Model.Fit"]}
{"id": "C49", "title": "Logging and validation do not influence training", "statement": "Fit with any logEvery and validation set leaves the same parameters and optimizer state as Fit without logging, whenever it returns nil.", "quantifier": "all models, data, validation sets, logEvery", "why_tests_cant": "non-interference over all runs", "anchors": ["model.go:Model.Fit", "model.go:CalculateLoss", "model.go:CalculateAccuracy"]}
{"id": "C50", "title": "Training can be split", "statement": "Fit for e1 epochs followed by Fit for e2 epochs gives the same parameters and optimizer state as Fit for e1+e2 epochs (same random stream, no logging).", "quantifier": "all e1, e2, models, data", "why_tests_cant": "unbounded histories", "anchors": ["model.go:Model.Fit"]}
{"id": "C51", "title": "Evaluation does not change the model", "statement": "Predict, CalculateLoss and CalculateAccuracy change no weights, biases, optimizer state, X or Y (for models with at least one layer), draw no random numbers, and calling them again gives the same result.", "quantifier": "all models, inputs, and interleavings of evaluation calls", "why_tests_cant": "history property", "anchors": ["model.go:Predict", "model.go:CalculateLoss", "model.go:CalculateAccuracy"]}
{"id": "C52", "title": "Predict post-processing", "statement": "Predict returns the raw output for regression, the RowMax column for categorical and the 0/1 matrix for binary accuracy type, and an error for any other accuracy type.", "quantifier": "all models, inputs, accuracy types", "why_tests_cant": "a unit test samples a few sizes and values; the claim ranges over all of them", "anchors": ["model.go:Predict"]}
{"id": "C53", "title": "A small SGD step decreases the objective", "statement": "In exact arithmetic, away from kinks, if the gradient is non-zero there is a positive threshold such that one plain SGD step with any smaller learning rate strictly decreases the training objective.", "quantifier": "all models, data, learning rates below the threshold", "why_tests_cant": "a unit test samples a few sizes and values; the claim ranges over all of them", "anchors": ["model.go:Model.Backward", "optimizers.go:SGDOptimizer.Update"]}
{"id": "C54", "title": "A forward pass between Forward and Backward corrupts gradients", "statement": "Backward uses state saved by the most recent forward pass of each layer: if another forward pass (for example Predict) runs in between, Backward of the first outputs should still give the same gradients. It does not (refuted); it does when no other pass of that model intervenes.", "quantifier": "all interleavings of passes", "why_tests_cant": "history property", "anchors": ["network.go:HiddenLayer", "model.go:Model.Forward"]}
{"id": "C55", "title": "Layer save/load round trip", "statement": "LoadLayer on the bytes written by SerializeLayer (followed by anything) returns a layer of the same kind, sizes, slope/dropout and bit-identical weights and biases in fresh storage and consumes exactly those bytes; SerializeLayer returns an error when the matrix shapes disagree with the sizes.", "quantifier": "all layers with sizes below 2^31, all trailing data, all float64 bit patterns", "why_tests_cant": "a unit test samples a few sizes and values; the claim ranges over all of them", "anchors": ["layer_data.go"]}
{"id": "C56", "title": "Model save/load round trip", "statement": "LoadModel on the bytes of Serialize, for every finalized consistent model with at most 127 layers, returns a model with the same sizes, loss, accuracy settings, optimizer hyper-parameters and bit-identical layers, whatever order the optimizer map is iterated in.", "quantifier": "all models, all map iteration orders, all bit patterns", "why_tests_cant": "Go's map order is random per run", "anchors": ["model_data.go:Serialize", "model_data.go:LoadModel"]}
{"id": "C57", "title": "A reloaded model predicts identically", "statement": "For every input, Predict on the reloaded model gives bit-identical results to the original model.", "quantifier": "all models, all inputs", "why_tests_cant": "a unit test samples a few sizes and values; the claim ranges over all of them", "anchors": ["model_data.go:LoadModel", "model.go:Predict"]}
{"id": "C58", "title": "Truncated files are rejected", "statement": "LoadModel on any proper prefix of a serialized model returns an error (never a model, never a panic); likewise LoadLayer.", "quantifier": "all models, all truncation points", "why_tests_cant": "crash/truncation points are unbounded", "anchors": ["model_data.go:loadModelBuffer", "layer_data.go:loadLayerBuffer"]}
{"id": "C59", "title": "Whatever LoadModel accepts is a consistent model", "statement": "For every byte string on which LoadModel returns a model, that model is consistent (fitting layers, rectangular finite-size weights, one optimizer per layer, loss size = output size), so Predict on right-width input cannot fail. LoadLayer never panics.", "quantifier": "all byte strings", "why_tests_cant": "the input space is unbounded", "anchors": ["model_data.go:LoadModel", "layer_data.go:LoadLayer"]}
{"id": "C60", "title": "LoadModel can panic on hostile input", "statement": "LoadModel should reject malformed data with an error. A negative key length in the optimizer table makes it panic; so does a version mismatch when InitLogger was never called (refuted).", "quantifier": "witness plus characterisation over all byte strings", "why_tests_cant": "needs a specific byte pattern", "anchors": ["model_data.go:loadModelBuffer"]}
{"id": "C61", "title": "File format as documented", "statement": "The bytes written by SerializeLayer/Serialize are exactly the fields of LayerData.md/ModelData.md in order, little-endian, and the total length is the documented sum.", "quantifier": "all layers and models", "why_tests_cant": "a unit test samples a few sizes and values; the claim ranges over all of them", "anchors": ["layer_data.go:SerializeLayer", "model_data.go:Serialize", "LayerData.md", "ModelData.md"]}
{"id": "C62", "title": "Models with more than 127 layers do not survive saving", "statement": "Serialize writes ModelSize as int8: a consistent model with 128 layers is saved without error but cannot be loaded back as that model (refuted round trip).", "quantifier": "all consistent models with 128..255 layers", "why_tests_cant": "a unit test samples a few sizes and values; the claim ranges over all of them", "anchors": ["model_data.go:Serialize"]}
{"id": "C63", "title": "Saving to a file: crash and error behaviour", "statement": "After a successful SaveFile, LoadFile returns the saved model. At every crash point during SaveFile the file is either unchanged (before open) or a prefix of the new data, and LoadFile of a proper prefix returns an error: a crash never yields a wrong model silently. The previous contents are not preserved: they are lost as soon as saving starts, even if Serialize then fails (refuted atomic replace).", "quantifier": "all models, all crash points, all previous contents", "why_tests_cant": "crash points", "anchors": ["model_data.go:SaveFile", "model_data.go:LoadFile"]}
{"id": "C64", "title": "LoadFile and short reads", "statement": "LoadFile should return the saved model or an error. It ignores the count returned by file.Read: a short read leaves zero bytes at the end of the buffer, which load silently as zero weights (refuted); with full reads it is correct.", "quantifier": "all models, all short-read lengths", "why_tests_cant": "needs a short read", "anchors": ["model_data.go:LoadFile"]}
{"id": "C65", "title": "Loader memory is not bounded by input size", "statement": "Memory allocated by LoadLayer should be bounded by the input length. It is not: for any sizes r,c < 2^31 a 27-byte header makes it allocate r*c cells before it reports the truncated data (refuted).", "quantifier": "all declared sizes", "why_tests_cant": "needs hostile sizes", "anchors": ["layer_data.go:loadLayerBuffer"]}
{"id": "C66", "title": "Re-saving a loaded model is stable", "statement": "If LoadModel succeeds on data, then saving the result and loading again gives the same model (same fields, bit-identical parameters).", "quantifier": "all byte strings accepted by LoadModel", "why_tests_cant": "unbounded input space", "anchors": ["model_data.go"]}
{"id": "C67", "title": "Failing calls need an initialised logger", "statement": "Fit that hits an error should return it. It does when InitLogger was called; when it was not, Fit panics on the nil logger instead (refuted).", "quantifier": "all failing Fit calls", "why_tests_cant": "a unit test samples a few sizes and values; the claim ranges over all of them", "anchors": ["nn.go:InitLogger", "model.go:Fit"]}
{"id": "C68", "title": "Training resumes differently after save/load", "statement": "Saving and loading drops optimizer state: for an optimizer without decay and momentum continuing after save/load equals continuing without; with SGD momentum or decay or Adam it can differ (documented limitation, refuted in general).", "quantifier": "all models and continuations", "why_tests_cant": "history property", "anchors": ["model_data.go:Serialize", "optimizers.go"]}
{"id": "C69", "title": "No call ever removes or resizes existing data", "statement": "For every program made of calls of the exported functions with arbitrary arguments, however each call ends (result, error or panic): existing float arrays and row tables keep their length, layers and optimizers are never removed, random numbers are only consumed forwards, and log lines are only appended.", "quantifier": "all client programs, all arguments, all outcomes", "why_tests_cant": "ranges over all programs and all malformed arguments, including calls that panic half way", "anchors": ["matrix.go", "network.go", "optimizers.go", "model.go", "misc.go", "loss.go"]}
{"id": "C70", "title": "Logged losses and accuracies are those of the trained parameters", "statement": "With logging every k epochs, Fit appends exactly one line per logged epoch for the training set, followed by one for the validation set if given, with the loss and accuracy of inference with the parameters at the end of that epoch; the epochs logged are 0, k, 2k, ...", "quantifier": "all models without sigmoid layers, data, validation sets, epochs, batch sizes, logEvery", "why_tests_cant": "all histories of training interleaved with evaluation", "anchors": ["model.go:Model.Fit"]}
{"id": "C71", "title": "Linear regression training converges to the optimum", "statement": "Full-batch Fit of a single linear layer with mean squared error and plain SGD, with lr*(2/outputs)*(||X||^2 + samples) <= 1, never increases the training objective, and after E epochs its objective exceeds that of any other weights and biases by at most (squared distance from the initial parameters)/(2*lr*E). A larger learning rate can increase the objective.", "quantifier": "all data sets, sizes, initial parameters, numbers of epochs, competitors (exact arithmetic)", "why_tests_cant": "compares with every possible parameter setting and bounds the rate for every number of epochs", "anchors": ["model.go:Model.Fit", "network.go:Layer.Backward", "loss.go:Loss.Backward", "optimizers.go:Optimizer.Update"]}
{"id": "C72", "title": "Softmax regression training converges to the optimum", "statement": "Full-batch Fit of a single softmax layer with cross entropy on one-hot labels and plain SGD, with lr*(||X||^2 + samples)/samples <= 1, never increases the training objective, and after E epochs its objective exceeds that of any other weights and biases by at most (squared distance from the initial parameters)/(2*lr*E).", "quantifier": "all data sets, sizes, initial parameters, numbers of epochs, competitors (exact arithmetic)", "why_tests_cant": "compares with every possible parameter setting and bounds the rate for every number of epochs", "anchors": ["model.go:Model.Fit", "network.go:Layer.Backward", "loss.go:Loss.Backward", "optimizers.go:Optimizer.Update"]}
{"id": "C73", "title": "Full-batch training does not depend on the order of the samples", "statement": "In exact arithmetic, two full-batch trainings of equal networks without Dropout layers on the same samples in different order end with equal parameters and optimizer states, for every optimizer, loss and number of epochs. In float64 arithmetic this is false.", "quantifier": "all networks without dropout, data sets, permutations, epochs", "why_tests_cant": "all permutations of all data sets through a whole training run; float tests would need tolerances", "anchors": ["model.go:Model.Fit", "network.go:Layer.Backward", "loss.go:Loss.Backward"]}
{"id": "C74", "title": "Mean absolute error with several outputs never trains", "statement": "With MeanAbsoluteLoss of size 2 or more (whose gradient factor 1/size is an integer division), Fit changes no weight and no bias of any layer, for every network, data set, batch size and number of epochs and every optimizer without accumulated history, such as those Finalize installs.", "quantifier": "all networks, data, optimizers without history, batch sizes, epochs (exact arithmetic)", "why_tests_cant": "a statement about every training run; a test would only show that one run did not improve", "anchors": ["loss.go:MeanAbsoluteLoss.Backward", "model.go:Model.Fit"]}
{"id": "C75", "title": "A never-initialised deep network learns only its output bias", "statement": "Training a network of two or more layers whose parameters are still zero (NewXLayer leaves them zero until InitLayers) changes only the biases of the last layer, for every data set, loss, optimizer and number of epochs, and afterwards the predictions still do not depend on the input.", "quantifier": "all networks of at least two layers without Softmax or Sigmoid before the last, data, losses, fresh optimizers, epochs (exact arithmetic)", "why_tests_cant": "all training runs and all inputs", "anchors": ["model.go:Model.Fit", "model.go:Model.InitLayers", "network.go:NewLayer"]}
{"id": "C76", "title": "A layer added after Finalize makes training panic", "statement": "AddLayer accepts a further layer on a finalized model and leaves it consistent, but the model has no optimizer for the new layer: Fit on every matching data set panics with an index error (instead of training or reporting an error).", "quantifier": "all trainable models, added layers that keep the output size, data sets, batch sizes and numbers of epochs", "why_tests_cant": "ranges over all models, layers and data; the expected error-or-training behaviour is refuted", "anchors": ["model.go:Model.AddLayer", "model.go:Model.Finalize", "model.go:Model.Fit"]}
{"id": "C77", "title": "Different numbers of samples and labels are not reported", "statement": "Fit takes the number of samples from the labels. Extra samples are ignored silently: training equals training on the first as many samples as there are labels. With fewer samples than labels (no spare capacity) Fit panics for every batch size. The expectation that either is reported as an error is refuted. Two sample matrices that begin at the same place train identically whatever their declared sizes.", "quantifier": "all models, data sets, batch sizes, epochs", "why_tests_cant": "all sizes and batch sizes", "anchors": ["model.go:Model.Fit"]}
{"id": "C78", "title": "Data of the wrong width is rejected before anything is changed", "statement": "Samples whose width differs from the model's inputs make Fit return a dimension error and change nothing but the log; labels whose width differs from the model's outputs make Fit return a dimension error with every weight, bias and optimizer unchanged. Without labels Fit does nothing (batch size given) or reports a dimension error (no batch size).", "quantifier": "all consistent models, widths, batch sizes, epochs", "why_tests_cant": "all widths and models", "anchors": ["model.go:Model.Fit", "model.go:Model.Forward", "model.go:Model.Backward"]}
{"id": "C79", "title": "Plain SGD does not check gradient shapes", "statement": "Update of a SGD optimizer without momentum uses the top left corner of a larger gradient silently, and panics with an index error on a smaller one: for a small weight gradient the biases are still unchanged, for a small bias gradient all weights have already been changed. The iteration counter is not advanced by a panic. The expectation of an error is refuted in both directions.", "quantifier": "all shapes, all values, every number semantics", "why_tests_cant": "all shapes", "anchors": ["optimizers.go:SGDOptimizer.Update"]}
{"id": "C80", "title": "Bounded optimizer steps", "statement": "If beta1^2 < beta2, no Adam step after any history of gradients moves a parameter by more than lr_t*sqrt(1-beta1)/sqrt((1-beta2)(1-beta1^2/beta2)); the first step is lr*g/(sqrt((1-beta2)/(1-beta1))*|g|+eps), so the usual bound by the learning rate is refuted (five times the rate for beta1=0.9, beta2=0.999, eps=0.1). With momentum mu<1 and gradients bounded by G no SGD step exceeds lr*G/(1-mu).", "quantifier": "all histories of gradients, all shapes (exact arithmetic)", "why_tests_cant": "histories are unbounded", "anchors": ["optimizers.go:AdamOptimizer.Update", "optimizers.go:SGDOptimizer.Update"]}
{"id": "C81", "title": "Independence of separate models", "statement": "For every program that trains and queries several models which share no parameter storage and no optimizer and have no dropout layer (they may share training data), each model ends with exactly the parameters and optimizer contents, and makes exactly the predictions, that it would have had if the program had used no other model. Refuted for models with dropout (they share the random numbers) and for models with a common layer.", "quantifier": "all programs of Fit and Predict calls, any number of models, all layer kinds except Sigmoid and Dropout, all optimizers", "why_tests_cant": "interleavings and histories are unbounded; aliasing shows only after particular interleavings", "anchors": ["model.go:Model.Fit", "model.go:Model.Predict", "optimizers.go:SGDOptimizer.Update", "optimizers.go:AdamOptimizer.Update"]}
{"id": "C82", "title": "The whole life of a model", "statement": "For every list of layers whose sizes fit together, constructing them, AddLayer, InitLayers, Finalize, Fit, Predict, saving, LoadModel and Predict run to the end without error or panic. Both predictions contain the same matrix: the forward pass of the network that the training equations yield from weights built from consecutive normal numbers and zero biases. The data matrices keep their contents and the two predictions share no rows.", "quantifier": "all lists of 1 to 127 layers other than Sigmoid with sizes below 2^31, all losses, optimizers, accuracy types 0..2, data sets, batch sizes, epochs, random numbers and map iteration orders", "why_tests_cant": "the example programs run a handful of architectures; the claim composes every step for all of them", "anchors": ["model.go:Model.AddLayer", "model.go:Model.InitLayers", "model.go:Model.Finalize", "model.go:Model.Fit", "model.go:Model.Predict", "model_data.go:NewSavedModelData", "model_data.go:LoadModel"]}
{"id": "C83", "title": "Training does not break symmetry", "statement": "If two units of a ReLU, leaky ReLU or linear layer that is not the last agree in incoming weights, bias, outgoing weights and optimizer contents, they agree in all of these, bit for bit, after Fit, and their outputs agree on every sample. If two features are equal in every training sample and start with equal weights, their weights stay equal. Refuted for dropout layers, whose masks separate equal units.", "quantifier": "all models, positions of the layer, units, losses, optimizers, data sets, batch sizes and numbers of epochs, over any number type", "why_tests_cant": "ranges over all networks and arbitrarily long training", "anchors": ["model.go:Model.Fit", "model.go:Model.Backward", "network.go:HiddenLayer.Backward", "optimizers.go:SGDOptimizer.Update", "optimizers.go:AdamOptimizer.Update"]}
{"id": "C84", "title": "Dead ReLU units never recover", "statement": "A ReLU unit of the first layer whose pre-activation is at most zero on every training sample, and a ReLU unit behind a ReLU layer whose weights and bias are at most zero, keeps its weights and bias, and the weights reading it, through any training by SGD (with or without momentum) or Adam, provided the optimizer holds no momentum for them (exact arithmetic). In float64 with plain SGD, weights and bias of such a first-layer unit stay bit-identical for finite data and a finite non-negative rate, even if the rest of the network overflows.", "quantifier": "all models, units, data sets, losses, batch sizes and numbers of epochs", "why_tests_cant": "an invariant of unboundedly long training runs of arbitrary networks", "anchors": ["activation.go:RELUPrime", "network.go:HiddenLayer.Backward", "model.go:Model.Fit", "optimizers.go:SGDOptimizer.Update", "optimizers.go:AdamOptimizer.Update"]}
{"id": "C85", "title": "The binomial sampler samples the binomial distribution", "statement": "With fewer than 25 trials binomial.Rand reads exactly one uniform number per trial and returns the number of successes; over uniform numbers that are multiples of 1/m and P = k/m, exactly C(n,j) k^j (m-k)^(n-j) of the m^n sequences of draws return j. With any number of trials and any method a result is a whole number between 0 and N, it is 0 for P = 0 and N for P = 1, and exchanging P and 1-P exchanges successes and failures draw for draw (exact arithmetic). The one-trial call of the dropout layer is the N = 1 case. With a NaN probability and N >= 25 it never returns.", "quantifier": "all numbers of trials, probabilities, streams of random numbers and library functions", "why_tests_cant": "the exact distribution and the rejection loops quantify over all random streams", "anchors": ["binomial.go:binomial.Rand"]}
{"id": "C86", "title": "One NaN in the training data destroys the model", "statement": "In float64, if one feature of one training sample is NaN, then after Fit with at least one epoch every weight and bias of every layer is NaN, for any layers, any optimizer, any batch size and every loss but the mean absolute error. A model whose parameters are all NaN predicts NaN (regression), class 0 (categorical) or 1 (binary) for every input. No training run ever turns a NaN parameter into a number or a non-finite parameter into a finite one.", "quantifier": "all models, data sets with a NaN, batch sizes, numbers of epochs, and all float64 values of the rest", "why_tests_cant": "contagion through arbitrary networks, optimizers and data, and permanence over unboundedly many updates", "anchors": ["model.go:Model.Fit", "model.go:Model.Predict", "network.go:HiddenLayer.Backward", "optimizers.go:AdamOptimizer.Update", "activation.go:RELU"]}
{"id": "C87", "title": "Dropout is unbiased, its gradients are not", "statement": "In exact arithmetic, for a dropout layer with dropout k/m and uniform numbers drawn from the multiples of 1/m: over all m^(rows*outputs) sequences of draws the training outputs of DropoutLayer.Forward average to the output of ForwardNoDropout, the squares average to out^2/(1-dropout), and products of two different outputs average to the product of the averages. The weight, bias and input gradients of DropoutLayer.Backward average to (1-dropout) times those of the layer without dropout.", "quantifier": "all layers, inputs, batch sizes, upstream gradients, and all m and k < m", "why_tests_cant": "averages over all sequences of random numbers, for all layers and inputs", "anchors": ["network.go:DropoutLayer.Forward", "network.go:DropoutLayer.ForwardNoDropout", "network.go:DropoutLayer.Backward", "binomial.go:binomial.Rand"]}
{"id": "C88", "title": "Shuffling is uniform", "statement": "ShuffleDataset on r samples reads exactly r-1 integers; what it does depends only on them modulo r, r-1, ..., 2, which can take r! combinations of values; every one of the r! orders of the samples arises from exactly one combination, and is applied to inputs and labels alike.", "quantifier": "all matrices with distinct row arrays, all integer streams", "why_tests_cant": "a bijection between all draw sequences and all permutations, for every number of samples", "anchors": ["misc.go:ShuffleDataset"]}
{"id": "C89", "title": "Training a softmax layer conserves its weight sums", "statement": "In exact arithmetic, for every softmax layer trained by SGD (with or without momentum, starting without velocity), Fit changes neither the sum over the outputs of the weights leaving each input nor the sum of the biases: any number of epochs, any batch size, any other layers, any loss when the layer is not the last, and for the last layer mean squared error, or cross-entropy with exactly one label equal to 1 per sample. Refuted for Adam and for labels that are probabilities.", "quantifier": "all networks with a softmax layer, data sets, batch sizes and numbers of epochs", "why_tests_cant": "an exact conservation law over unboundedly many updates of arbitrary networks", "anchors": ["model.go:Model.Fit", "network.go:SoftmaxLayer.Backward", "network.go:SoftmaxLayer.BackwardCrossEntropy", "optimizers.go:SGDOptimizer.Update"]}
{"id": "C90", "title": "Rounding errors of float64 networks are bounded", "statement": "In float64: every finite entry of Dot is within ((1+2^-53)^(k+1)-1) times the sum of the absolute products plus k*2^-1075*(1+2^-53)^k of the exact entry, and is finite if that sum is below about 2^1023. For every network of linear, ReLU, leaky ReLU and dropout layers with finite parameters, if the input is within given bounds of exact values and nothing can overflow, Predict returns finite numbers within a running error bound of the exact network's outputs; for categorical models a class that wins by more than the bounds in exact arithmetic is the class returned. Refuted without the margin: rounding alone can change the predicted class.", "quantifier": "all matrices, networks of any depth and width, inputs and input errors", "why_tests_cant": "tests cannot enumerate float64 inputs, and the exact result is not computable in float64", "anchors": ["matrix.go:Matrix.Dot", "model.go:Model.Predict", "network.go:HiddenLayer.Forward", "network.go:LinearLayer.Forward", "network.go:LeakyLayer.Forward"]}
{"id": "C91", "title": "Mini-batch training converges on data a linear layer can fit", "statement": "In exact arithmetic, for one linear layer with mean squared error and plain SGD whose learning rate is at most 1/((2/outputs)*(sum of squared inputs + samples)): Fit with any batch size and any number of epochs never increases the squared distance of the parameters to any weights and biases that fit the data exactly; within any number of epochs there is one after which the objective is at most batches^2 * initial squared distance / (lr * epochs); and if some exact fit exists the objective after enough epochs is below every positive bound. Refuted without an exact fit: two samples with equal inputs and different labels keep training with batches of one at objective 5/9 for ever although 1/2 is attainable.", "quantifier": "all data sets, sizes, initial parameters, batch sizes and epoch counts", "why_tests_cant": "a statement about the limit over all data sets and epoch counts", "anchors": ["model.go:Model.Fit", "network.go:LinearLayer.Backward", "optimizers.go:SGDOptimizer.Update", "loss.go:MeanSquaredLoss.Backward"]}
{"id": "C92", "title": "Damage to a model file is only noticed in its structure", "statement": "For every saved model: overwriting the eight bytes of any weight or bias with any other eight bytes still loads without an error or warning, and gives the same model with exactly that parameter replaced; overwriting the number of inputs in the header changes nothing at all; other first four bytes than NNML, or other two bytes than LA where a layer starts, give an error. Refuted: a damaged file is reported (one changed byte changes a prediction from 27 to -8).", "quantifier": "all models, layers, parameters, replacement bytes and states of the loading program", "why_tests_cant": "tests cannot try every damaged file of every model", "anchors": ["model_data.go:LoadModel", "layer_data.go:LoadLayer", "model_data.go:SavedModelData.Serialize"]}
{"id": "C93", "title": "Copies of the training data: averaged by the cross-entropies, summed by the squared and absolute errors", "statement": "In exact arithmetic, without dropout layers and with whole batches: with categorical or binary cross-entropy and any optimizers, Fit on the data repeated c times ends in the same weights, biases and optimizer states as Fit on the data once. With mean squared or mean absolute error and SGD (with or without momentum and decay) Fit on the data repeated c times ends in the same weights, biases and velocities as Fit on the data once with c times the learning rate. Refuted: the same learning rate gives the same result (bias 5 against 7 after one epoch). With Adam, the squared or absolute error on c copies trains like the data once with epsilon divided by c (stored momentums divided by c and caches by c\u00b2).", "quantifier": "all networks without dropout, data sets, numbers of copies, epochs and hyperparameters", "why_tests_cant": "a relation between two whole trainings, for all data sets and networks", "anchors": ["model.go:Model.Fit", "loss.go:MeanSquaredLoss.Backward", "loss.go:MeanAbsoluteLoss.Backward", "loss.go:CrossEntropyLoss.Backward", "loss.go:BinaryCrossEntropyLoss.Backward", "optimizers.go:SGDOptimizer.Update"]}
{"id": "C94", "title": "The model passes the project's own unit tests", "statement": "Every unit test of the nine *_test.go files of the package (33 tests), written as a program of the model over IEEE float64, ends without t.Error, t.Errorf or panic, from the empty heap, for every random stream, every math library and logger state: all matrix, misc, accuracy, loss, layer, model, training (500 epochs), serialization (any map order, any previous file content, at least 638 bytes of room on the device) and optimizer tests (500 hand-written epochs of SGD and of Adam). TestMatrixScalarOperations assumes pow(0,2)=0 and pow(3,2)=9.", "quantifier": "all random streams, math libraries, logger states, map orders, file contents", "why_tests_cant": "a run of the tests uses one random stream; here they pass for every stream, so no test is flaky", "anchors": ["matrix_test.go:TestMatrix", "misc_test.go:TestShuffleDataset", "accuracy_test.go:TestRegressionAccuracy", "loss_test.go:TestCrossEntropyLoss", "network_test.go:TestDropoutLayer", "model_test.go:TestTrainModel", "layer_data_test.go:TestLayerData", "model_data_test.go:TestModelSaveLoad", "optimizers_test.go:TestAdamOptimizer"]}
{"id": "C95", "title": "The hand-written training loop of the optimizer tests does what Fit does", "statement": "For three layers ending in softmax, cross-entropy, any optimizers and any number of epochs, the loop written by hand in optimizers_test.go (forward passes, Loss.Forward, BackwardCrossEntropy, Backward, updates from the last layer to the first) and Model.Fit with one batch per epoch end in the same weights, biases, optimizer states and position in the random stream. The loop calls Loss.Forward, which clips the outputs in place before the backward pass reads them, and Fit does not; the two agree because clipping never changes a softmax output: over the reals always, in float64 if math.Exp returns no negative number, in which case every float64 softmax output is a NaN or a number in [0,1].", "quantifier": "all networks of three layers ending in softmax, data sets, optimizers, epochs", "why_tests_cant": "an equality between two programs over all inputs; the tests run only one of them", "anchors": ["optimizers_test.go:TestSGDOptimizer", "optimizers_test.go:TestAdamOptimizer", "model.go:Model.Fit", "network.go:SoftmaxLayer.BackwardCrossEntropy", "loss.go:CrossEntropyLoss.Forward", "matrix.go:Clip"]}
{"id": "C96", "title": "Signs and ranges survive rounding: float64 outputs, losses and Adam caches", "statement": "In IEEE float64, for every network, data and weights including NaNs and infinities: softmax and sigmoid outputs are NaN or in [0,1] (if math.Exp returns no negative number), ReLU and dropout-layer outputs are never negative; the mean absolute error is never negative, nor the mean squared error (if pow(x,2) is never negative), nor the cross-entropy with one-hot labels and the binary cross-entropy with labels in [0,1] (if log is not positive on [0,1]), also as returned by CalculateLoss; during Fit no Adam cache entry is ever negative, so the denominator of every Adam step is NaN, infinite or at least epsilon.", "quantifier": "all float64 networks, inputs, labels, optimizer states and numbers of epochs", "why_tests_cant": "over all float64 values and all roundings; tests compare a few outputs", "anchors": ["activation.go:Softmax", "activation.go:Sigmoid", "activation.go:RELU", "network.go:DropoutLayer.Forward", "loss.go:CrossEntropyLoss.Forward", "loss.go:BinaryCrossEntropyLoss.Forward", "loss.go:MeanSquaredLoss.Forward", "loss.go:MeanAbsoluteLoss.Forward", "optimizers.go:AdamOptimizer.Update", "model.go:Model.CalculateLoss"]}
{"id": "C97", "title": "The order of features, hidden units and outputs does not matter in exact arithmetic", "statement": "In exact arithmetic, take two models that differ only in the order of the input features, of the hidden units and of the outputs (weights, biases and optimizer moments reordered accordingly), and the same data with columns reordered. Without dropout layers, Fit with any loss, optimizers, batch size and number of epochs keeps them reorderings of each other; with any layers, Predict returns the same outputs reordered, and CalculateLoss the same loss. Refuted in float64: a linear layer predicts 2^53 for the sample (2^53,1,1) and 2^53+2 for (1,1,2^53) with three equal weights.", "quantifier": "all networks, reorderings, data, losses, optimizers, batch sizes, epochs", "why_tests_cant": "over all permutations and all trainings; float tests would even fail because of rounding", "anchors": ["model.go:Model.Fit", "model.go:Model.Predict", "model.go:Model.CalculateLoss", "network.go:HiddenLayer.Backward", "network.go:SoftmaxLayer.Backward", "optimizers.go:AdamOptimizer.Update"]}
{"id": "C98", "title": "Goroutines may share a model for evaluation", "statement": "Any number of goroutines evaluate models (Model.Forward outside training, as Predict does), possibly the same model, on one heap, with the scheduler switching after any layer. For every schedule no goroutine fails, every goroutine that got a turn for each of its layers holds exactly the output of its network on its own input, and all models and inputs are as before. A goroutine running alone is Model.Forward. (Switches inside a layer's Forward are not modelled; two goroutines that also train are excluded, see C54.)", "quantifier": "all models, inputs, numbers of goroutines and schedules; any arithmetic", "why_tests_cant": "all interleavings", "anchors": ["model.go:Model.Forward", "model.go:Model.Predict", "network.go:HiddenLayer.Forward", "network.go:DropoutLayer.ForwardNoDropout"]}
{"id": "C99", "title": "Momentum and learning-rate decay converge on convex problems", "statement": "In exact arithmetic, whole-batch Fit of one linear layer with mean squared error or one softmax layer with cross entropy on one-hot labels, with L*(sum of squared inputs + samples) as the curvature bound Q (L = 2/outputs or 1/samples). SGD with momentum mu in [0,1) from zero velocities with lr*Q <= 1-mu: after E epochs the objective is not above its initial value f0 and exceeds that of any other parameters at squared distance D by at most ((1-mu)*D/(2 lr) + 6 f0/(1-mu)^2)/E; it need not fall every epoch (refuted). SGD with decay and lr*Q <= 1: the objective never rises, the excess is at most D/(2 * sum of the rates used), and tends to at most 0. Adam with a constant rate need not converge: for every rate and every epsilon below twice the rate there is a linear regression on which it jumps across the optimum for ever (beta1 = beta2 = 0).", "quantifier": "all data, initial parameters, momenta, decays, learning rates within the bound, numbers of epochs", "why_tests_cant": "asymptotic statement over all data sets", "anchors": ["optimizers.go:SGDOptimizer.Update", "model.go:Model.Fit", "network.go:LinearLayer.Backward", "network.go:SoftmaxLayer.Backward"]}
{"id": "C100", "title": "Fit's 64-bit integer arithmetic never overflows", "statement": "With every integer operation of Fit wrapping at 64 bits, Fit behaves exactly as with unbounded integers for every 64-bit batch size (negative ones included) and at most 2^62 rows. In float64 any batch size of at least the number of samples, up to 2^63-1, behaves like no batching, although it is converted to float64 and back. So Fit is mini-batch training for every non-negative 64-bit batch size.", "quantifier": "all models, data, states, batch sizes and epochs", "why_tests_cant": "extreme sizes", "anchors": ["model.go:Model.Fit"]}
{"id": "C101", "title": "Small input changes cause bounded output changes", "statement": "In exact arithmetic, two inputs that differ by at most d in every entry lead to predictions that differ by at most d times the product over the layers of (largest sum of absolute weights of a unit) x (steepest slope of the activation: 1 for linear, ReLU and dropout layers, max(1,|slope|) for leaky, 1/4 for sigmoid, 1/2 for softmax layers). A categorical prediction whose class is ahead by more than twice this bound, and a binary prediction further than the bound from 1/2, do not change. For a linear layer the bound is attained.", "quantifier": "all networks, inputs, perturbations and states", "why_tests_cant": "robustness certificate over all perturbations", "anchors": ["model.go:Model.Predict", "model.go:Model.Forward", "network.go:SigmoidLayer.Forward"]}
{"id": "C102", "title": "Linear layers add nothing, and exclusive or needs a hidden layer", "statement": "In exact arithmetic a model whose layers are all linear except perhaps the last predicts, for every input, what some single layer of the last layer's kind and slope predicts. Hence such a model with one output and binary accuracy (no negative leaky slope), or with a final softmax layer over two classes, classifies at most three of the four exclusive-or samples correctly, for all parameters and after training on them for any number of epochs with any loss, optimizers and batch size. A ReLU layer followed by a linear layer can classify all four.", "quantifier": "all models of this shape, parameters, inputs and training runs", "why_tests_cant": "impossibility over all parameters and training runs", "anchors": ["model.go:Model.Predict", "model.go:Model.CalculateAccuracy", "model.go:Model.Fit", "network.go:LinearLayer.Forward"]}
{"id": "C103", "title": "The example programs", "statement": "The three programs of the examples directory run without a panic or a reported error, and their final networks are exactly the ones that the training equations yield from the data they generate or read, in some order. TestSine's hand-written loop trains the same network as Fit would. TestIris's file has 150 records, 50 of each class, and its features are the float64 numbers nearest to the decimals in the file. In exact arithmetic the spiral's point i lies at distance i/(points-1) from the centre. If the iris file cannot be parsed, the program does not notice and learns nothing; a sample count that is not a multiple of the batch size makes the sine loop panic; one point per class makes every parameter of the spiral's network NaN.", "quantifier": "all networks, optimizers, sizes, epochs, random streams, library sine and cosine functions and file contents", "why_tests_cant": "the programs check nothing; they print losses of one random run", "anchors": ["examples/spiral_test.go:TestSpiral", "examples/spiral_test.go:NewSpiralData", "examples/spiral_test.go:linspace", "examples/iris_test.go:TestIris", "examples/sine_test.go:TestSine", "examples/iris.data"]}
{"id": "C104", "title": "The text of errors and log lines", "statement": "Everything the package writes into its log can be read back: %d gives the int exactly, %f the float64 rounded to the nearest millionth (ties to even, monotone, NaN only for NaN), the message of an error determines the error, an error line determines the step that is said to have failed and the error, and an information line determines the epoch, whether it is about validation data, and the loss and accuracy to within half a millionth. Fit writes exactly one line for each reported epoch and data set, in order; every error it returns is about dimensions or one of eight constant messages and is the text of the last line. For up to 999999 samples the printed accuracy determines the number of correct ones. Every entry is one line of the file. Refuted: a printed accuracy of 1.000000 means all samples are correct (four million samples); a printed loss of 0.000000 means zero loss; the line names the pass that failed (a failed backward pass is logged as a forward pass); a loaded model file can put a second line into the log through its version field.", "quantifier": "all numbers, errors, log lines, model files and training runs", "why_tests_cant": "no test looks at the log; the texts depend on unbounded numbers", "anchors": ["model.go:Model.Fit", "model_data.go:loadModelBuffer", "matrix.go:invalidMatrixDimensionsError", "matrix.go:invalidMatrixIndexError", "matrix.go:invalidSliceDimensionsError", "network.go:invalidLayerDimensionsError", "loss.go:invalidLossSize", "nn.go:InitLogger"]}
{"id": "C105", "title": "What one hidden layer can and cannot memorise", "statement": "In exact arithmetic, a trainable model with a hidden (ReLU) layer of n units and a linear layer can be given parameters (by overwriting its parameter matrices and nothing else) with which Predict returns the given targets exactly, for any at most n samples of any input and output size whose equal inputs have equal targets; with a softmax layer instead every one of at most n one-hot labelled samples gets the right class (accuracy 1). The number of units matters: with one input and n hidden units, whatever the parameters, and so after training for any number of epochs with any optimizers, loss and batch size, Predict is off by at least 1/2 on some of 2n+3 or more samples with alternating targets.", "quantifier": "all models of these shapes, widths, data sets, parameters and training runs", "why_tests_cant": "existence of parameters for every data set and impossibility for all parameters", "anchors": ["model.go:Model.Predict", "model.go:Model.CalculateAccuracy", "model.go:Model.Fit", "network.go:HiddenLayer.Forward", "network.go:LinearLayer.Forward", "network.go:SoftmaxLayer.Forward", "activation.go:RELU", "activation.go:Softmax"]}
{"id": "C106", "title": "One hidden layer approximates every continuous function of one variable", "statement": "In exact arithmetic, for all functions f_1..f_o that are continuous on an interval [a,b] and every eps > 0 there is a width N such that every trainable model with one input, a hidden (ReLU) layer of at least N units and a linear layer with o outputs can be given parameters (by overwriting its parameter matrices and nothing else) with which Predict, on any matrix of inputs from [a,b], returns values within eps of the functions in every cell.", "quantifier": "all continuous functions, intervals, error bounds, models of sufficient width and input matrices", "why_tests_cant": "quantifies over all continuous functions", "anchors": ["model.go:Model.Predict", "network.go:HiddenLayer.Forward", "network.go:LinearLayer.Forward", "activation.go:RELU"]}
{"id": "C107", "title": "A saved file determines its model, and models can share a buffer", "statement": "If a saved model followed by anything has the same bytes as another saved model followed by anything, then the two files are the same and so are the rests, and the models have the same stored layers (kinds, shapes, weights, biases, parameters), loss, accuracy kind and precision, optimizer kind and optimizer values: saving is injective and no saved file is a proper prefix of another. Any number of models saved one after the other into one buffer are loaded back in order with exactly the rest left over; models loaded earlier are not disturbed by later loads, the loaded models share no layer, matrix row or optimizer with each other or with anything that existed, and nothing is logged. LoadFile of such a file returns the first model and silently drops the rest.", "quantifier": "all savable models, lists of models, orders of the optimizer values and trailing bytes", "why_tests_cant": "compares the encodings of all pairs of models; sharing shows only under later mutation", "anchors": ["model_data.go:NewSavedModelData", "model_data.go:SavedModelData.Serialize", "model_data.go:loadModelBuffer", "model_data.go:LoadModel", "model_data.go:LoadFile", "layer_data.go:LoadLayer"]}
{"id": "C108", "title": "Incoming and outgoing weights of a unit change in balance", "statement": "In exact arithmetic, take a unit of a ReLU, linear or leaky layer (positive slope) or of a dropout layer that is followed by any layer, both trained by SGD without momentum (any loss, decay allowed). In every step, the change of the squared norm of its incoming weights and bias less the squared length of their movement equals, times the share that dropout keeps, the change of the squared norm of its outgoing weights less the squared length of their movement. So over any number of epochs and batches the difference of the two norms changes exactly by the sum of the squared movements. With Adam this is false.", "quantifier": "all networks, units, data sets, losses, epochs, batch sizes and dropout draws", "why_tests_cant": "an identity between all gradients of two layers on real numbers, along whole training runs", "anchors": ["model.go:Model.Fit", "network.go:HiddenLayer.Backward", "network.go:LinearLayer.Backward", "network.go:LeakyLayer.Backward", "network.go:DropoutLayer.Backward", "optimizers.go:SGDOptimizer.Update"]}
{"id": "C109", "title": "Scaling a unit changes training but not predictions", "statement": "In exact arithmetic, multiplying the incoming weights and the bias of units by positive numbers and dividing their outgoing weights by the same numbers (units of all layers at once, except sigmoid, softmax and output units) changes no prediction, whatever the accuracy kind, and no loss, for any inputs. Training tells the two networks apart: after one step of SGD their predictions can differ.", "quantifier": "all networks, scales and inputs", "why_tests_cant": "quantifies over all positive scales on real numbers", "anchors": ["model.go:Model.Predict", "model.go:Model.CalculateLoss", "model.go:Model.Fit", "network.go:HiddenLayer.Forward", "network.go:LeakyLayer.Forward", "network.go:LinearLayer.Forward"]}
{"id": "C110", "title": "A model that already fits is left alone", "statement": "In exact arithmetic, if a model without dropout outputs exactly the targets on the training data, then Fit with the mean squared or mean absolute error changes no weight or bias, for any number of epochs, any batch size and any optimizer that carries no momentum from earlier steps (Adam: epsilon positive). In float64 this fails for Adam with epsilon 0, which the constructor accepts: a fitting model's weight becomes NaN in the first step.", "quantifier": "all networks of Linear, ReLU, leaky ReLU and softmax layers, all data sets they fit, all epochs and batch sizes", "why_tests_cant": "tests try single networks; that every gradient of every layer is zero for every fitting network needs induction over the layers and batches", "anchors": ["model.go:Model.Fit", "loss.go:MeanSquaredLoss.Backward", "loss.go:MeanAbsoluteLoss.Backward", "optimizers.go:AdamOptimizer.Update", "optimizers.go:NewAdamOptimizer"]}
{"id": "C111", "title": "Steps on the parts of a batch add up or average", "statement": "In exact arithmetic and without dropout, one full-batch step of plain gradient descent on a data set moves every weight and bias by the sum of the movements that its two parts cause separately (squared and absolute error), or by their mean weighted with the numbers of samples (cross-entropies). Samples the model already fits can be left out of a step with the squared or absolute error under any optimizer. With Adam the movements do not add up.", "quantifier": "all networks, all pairs of data sets, all losses", "why_tests_cant": "tests compare single networks and batches; the law is about all splits of all batches through all layers", "anchors": ["model.go:Model.Fit", "network.go:LinearLayer.Backward", "loss.go:MeanSquaredLoss.Backward", "loss.go:CrossEntropyLoss.Backward", "optimizers.go:SGDOptimizer.Update"]}
{"id": "C112", "title": "Evaluating a data set sample by sample, in parts, in another order", "statement": "In exact arithmetic the accuracy of a model on a data set, and its cross-entropies, are the means of the values for the single samples; evaluated in two parts they combine with the numbers of samples as weights; they do not depend on the order of the samples. The mean squared and mean absolute error of a data set are those of its first sample, ignore any second part, and depend on the order.", "quantifier": "all networks, all data sets, all splits into two parts, all permutations, all losses and accuracies", "why_tests_cant": "tests evaluate fixed data sets; the law is about all data sets and all permutations", "anchors": ["model.go:Model.CalculateAccuracy", "model.go:Model.CalculateLoss", "loss.go:MeanSquaredLoss.Forward", "loss.go:MeanAbsoluteLoss.Forward", "loss.go:CrossEntropyLoss.Forward", "loss.go:BinaryCrossEntropyLoss.Forward"]}
{"id": "C113", "title": "A small loss bounds the errors a model makes", "statement": "In exact arithmetic, a model ending in softmax misclassifies at most the fraction loss / ln 2 of the samples, and none if the cross-entropy of n samples is below ln 2 / n; a model ending in sigmoid with 0-1 targets gets at most the fraction loss / ln 2 of the entries wrong; on one sample at most the fraction loss / precision^2 (squared error) or loss / precision (absolute error) of the entries miss by the precision or more. The first bound is reached. The converse fails, and for more than one sample the regression bounds fail.", "quantifier": "all networks, all data sets, all numbers of classes", "why_tests_cant": "an inequality between two measurements over all models and data sets", "anchors": ["model.go:Model.CalculateAccuracy", "model.go:Model.CalculateLoss", "loss.go:CrossEntropyLoss.Forward", "loss.go:BinaryCrossEntropyLoss.Forward", "loss.go:MeanSquaredLoss.Forward"]}
{"id": "C114", "title": "Training moves the first layer only within the span of the inputs", "statement": "In exact arithmetic, training by SGD (with or without momentum and decay) never changes how the units of the first layer respond to a direction orthogonal to all training inputs, for all losses, all later layers, all epochs and batch sizes. A feature that is zero in every training input keeps its weights under SGD and under Adam. Adam does change the response to directions the inputs do not have.", "quantifier": "all networks, all data sets, all directions, all epochs and batch sizes", "why_tests_cant": "a conserved quantity over all training runs and all directions", "anchors": ["model.go:Model.Fit", "network.go:LinearLayer.Backward", "network.go:HiddenLayer.Backward", "optimizers.go:SGDOptimizer.Update", "optimizers.go:AdamOptimizer.Update"]}
{"id": "C115", "title": "No model does better than the labels allow", "statement": "In exact arithmetic, when equal inputs carry different labels, the cross-entropy of every model ending in softmax is at least the mean of - ln(share), where the share of a sample is the fraction of the samples with its input that have its label; the accuracy of every model is at most the mean of the largest shares. Both bounds are reached.", "quantifier": "all networks, all data sets, all numbers of classes", "why_tests_cant": "a bound over all models that could ever be trained", "anchors": ["model.go:Model.CalculateLoss", "model.go:Model.CalculateAccuracy", "model.go:Model.Forward", "loss.go:CrossEntropyLoss.Forward", "activation.go:Softmax"]}
{"id": "C116", "title": "Deep networks of bounded width approximate every uniformly continuous function on a cube", "statement": "In exact arithmetic, for every function from the unit cube in d dimensions to o dimensions with uniformly continuous coordinates and every error bound there is a depth such that the parameters of every model of at least that depth, whose hidden ReLU layers have the widths d+o+1 and 2d+o in turn, can be overwritten so that Predict is within the bound on the whole cube. A model whose first layer has fewer units than there are inputs is off by at least 1/4 somewhere for the distance to the centre, however deep it is and however it is trained.", "quantifier": "all uniformly continuous functions, all error bounds, all models of the given shape, all points of the cube; all narrow models and training runs", "why_tests_cant": "existence of parameters for every function, and a bound over all parameters", "anchors": ["model.go:Model.Predict", "model.go:Model.Forward", "model.go:Model.Fit", "network.go:HiddenLayer.Forward", "network.go:LinearLayer.Forward", "activation.go:RELU"]}
{"id": "C117", "title": "The bias of the last layer records the sum of the residuals", "statement": "In exact arithmetic, with the squared error after a linear layer or the cross-entropy after a softmax layer, full batches and plain SGD in the last layer, the bias of the last layer after any number of epochs equals its initial value minus the rate times the weighted sum of the residuals of all predictions on the way, whatever the earlier layers are. A model that an epoch leaves unchanged predicts every output with the right sum. As long as the bias stays within a bound B, the residuals average out over t epochs to at most 2B / (rate * weight * t).", "quantifier": "all networks, all data sets, all numbers of epochs", "why_tests_cant": "an identity over whole training runs of every network", "anchors": ["model.go:Model.Fit", "model.go:Model.Backward", "model.go:Model.Predict", "network.go:LinearLayer.Backward", "optimizers.go:SGDOptimizer.Update", "loss.go:MeanSquaredLoss.Backward", "network.go:SoftmaxLayer.Backward", "loss.go:CrossEntropyLoss.Backward"]}
{"id": "C118", "title": "The residuals of a linear layer follow exact geometric sequences", "statement": "In exact arithmetic, for a model of one linear layer trained on the squared error by plain SGD with full batches, the component of the residuals along an eigenvector of the Gram matrix of the inputs (with a constant 1 appended for the bias) is multiplied by 1 - rate * (2/o) * eigenvalue in every epoch. If this factor is below -1 for a component the initial residuals contain, the predictions leave every bound. With one sample the error of each output is an exact geometric sequence, and one rate fits the sample in one epoch.", "quantifier": "all linear models, all data sets, all eigenvectors, all rates, all numbers of epochs", "why_tests_cant": "exact course of every training run, including divergence to infinity", "anchors": ["model.go:Model.Fit", "model.go:Model.Backward", "model.go:Model.Predict", "network.go:LinearLayer.Backward", "optimizers.go:SGDOptimizer.Update", "loss.go:MeanSquaredLoss.Backward", "network.go:LinearLayer.Forward"]}
{"id": "C119", "title": "Training a softmax layer separates exactly the data that can be separated", "statement": "In exact arithmetic, for a model of one softmax layer trained on the cross-entropy by plain SGD with full batches and a small enough rate, all training samples are classified correctly from some epoch on if and only if the classes are linearly separable. The loss then goes to 0, at an explicit speed, but no model that ends in softmax ever has the loss 0. A single softmax layer with accuracy 1, however trained, shows that the classes are separable.", "quantifier": "all data sets, all initial parameters, all small enough rates, all numbers of epochs", "why_tests_cant": "an equivalence between a property of the data and the limit of training", "anchors": ["model.go:Model.Fit", "model.go:Model.CalculateAccuracy", "model.go:Model.CalculateLoss", "network.go:SoftmaxLayer.Forward", "loss.go:CrossEntropyLoss.Forward", "misc.go:RowMax", "optimizers.go:SGDOptimizer.Update"]}
{"id": "C120", "title": "Depth buys exponentially many bends", "statement": "In exact arithmetic, a model with n+1 hidden ReLU layers of two units each can be given parameters that predict the targets 0, 1, 0, 1, ... of the inputs 0, 1, ..., 2^(n+1) exactly. A model of ReLU, leaky ReLU, dropout and linear layers predicts a piecewise linear function with at most as many pieces as the product of (units + 1) over its layers that are not linear. So if (w+1)^layers is at most 2^n for its largest width w, it misses one of these targets by at least 1/2, whatever its parameters and after any training on these points.", "quantifier": "all depths, all networks with one input and one output and these kinds of layers, all parameters, all numbers of epochs", "why_tests_cant": "a bound on every parameter setting of every shallow network, and an exact fit for every depth", "anchors": ["model.go:Model.Predict", "model.go:Model.Fit", "network.go:HiddenLayer.Forward", "network.go:LeakyLayer.Forward", "network.go:DropoutLayer.Forward", "network.go:LinearLayer.Forward", "activation.go:RELU"]}
{"id": "C121", "title": "Training a single layer does not amplify differences", "statement": "In exact arithmetic, two models of one linear layer (squared errors) or one softmax layer (cross entropy) that are trained with full batches on the same data at the same small enough rate end up no further apart than they started. If one of the n training samples of a softmax layer is replaced, its loss on any data changes by at most 4 (R^2 + 1) rate epochs / n, where R bounds the length of every sample.", "quantifier": "all data sets, all pairs of initial parameters, all neighbouring data sets, all small enough rates, all numbers of epochs, all test data", "why_tests_cant": "a bound on the effect of every change of a sample or of the start, over all runs", "anchors": ["model.go:Model.Fit", "model.go:Model.CalculateLoss", "model.go:Model.Backward", "network.go:SoftmaxLayer.Backward", "network.go:LinearLayer.Backward", "loss.go:CrossEntropyLoss.Backward", "loss.go:MeanSquaredLoss.Backward", "optimizers.go:SGDOptimizer.Update"]}
{"id": "C122", "title": "Momentum accelerates the training of a linear layer", "statement": "In exact arithmetic, when a linear layer is trained with full batches on squared errors by SGD with momentum mu, its residuals along an eigenvector of the Gram matrix (eigenvalue lam) follow r(t+2) = r(t+1) + mu (r(t+1) - r(t)) - a r(t+1) with a = 2 rate lam / outputs. They go to zero exactly if a < 2 (1 + mu). For eigenvalues between l and L, momentum rho^2 with a suitable rate makes all of them shrink at least like rho^t, for every rho above (sqrt L - sqrt l) / (sqrt L + sqrt l); without momentum, every rate leaves a residual that shrinks no faster than ((L - l) / (L + l))^t. So momentum beats every rate without momentum.", "quantifier": "all data sets, all initial parameters, all rates, all momenta in [0, 1), all numbers of epochs", "why_tests_cant": "limits and rates over all numbers of epochs, and a lower bound over all learning rates", "anchors": ["model.go:Model.Fit", "model.go:Model.Predict", "network.go:LinearLayer.Forward", "network.go:LinearLayer.Backward", "loss.go:MeanSquaredLoss.Backward", "optimizers.go:SGDOptimizer.Update"]}
{"id": "C123", "title": "Predictions on platforms with fused multiply-add", "statement": "The Go specification allows a compiler to round x*y + z once; on some platforms (arm64) it does, on others (amd64) it does not. Whatever additions of Dot are fused, the entries of a product and the predictions of networks without exponentials stay within the error bounds of C90, and a class that wins by more than these bounds is predicted on every platform. Otherwise the predicted class can depend on the platform.", "quantifier": "all choices of fused additions, all networks of linear, ReLU, leaky ReLU and dropout layers with finite parameters, all inputs that cannot overflow", "why_tests_cant": "a test runs on one platform", "anchors": ["matrix.go:Matrix.Dot", "model.go:Model.Predict", "model.go:Model.Forward", "network.go:LinearLayer.Forward", "network.go:HiddenLayer.Forward", "network.go:LeakyLayer.Forward", "network.go:DropoutLayer.ForwardNoDropout", "misc.go:RowMax"]}
{"id": "C124", "title": "Float64 training stays within computed bounds of exact training", "statement": "Run the training of a network once more in an arithmetic whose numbers carry a bound on the rounding error made so far. If that run finds every ReLU decision certain, then after Fit every float64 parameter it vouches for is finite and within its computed bound of the parameter that exact real arithmetic gives, and so is every later prediction. Without certain decisions float64 and exact training can part after one step on one sample.", "quantifier": "all networks of linear, ReLU and leaky ReLU layers trained with mean squared error, all data, batch sizes and numbers of epochs, all inputs of later predictions", "why_tests_cant": "tests run float64 only and cannot compare with exact arithmetic over all trainings", "anchors": ["model.go:Model.Fit", "model.go:Model.Predict", "model.go:Model.Forward", "model.go:Model.Backward", "loss.go:MeanSquaredLoss.Backward", "network.go:LinearLayer.Backward", "network.go:HiddenLayer.Backward", "network.go:LeakyLayer.Backward", "optimizers.go:SGDOptimizer.Update"]}
{"id": "C125", "title": "Training by SGD does not depend on the coordinates of the inputs, training by Adam does", "statement": "Write the inputs in other coordinates by a rotation, reflection or any embedding that keeps lengths and angles, and change the first layer's weights accordingly. In exact arithmetic a model whose first layer is trained by SGD, with or without momentum and decay, then predicts the same after any training. With Adam a rotation can change the predictions after one step.", "quantifier": "all isometries between input spaces, all networks, losses, data sets, batch sizes and numbers of epochs", "why_tests_cant": "infinitely many rotations and trainings", "anchors": ["model.go:Model.Fit", "model.go:Model.Predict", "model.go:Model.Backward", "optimizers.go:SGDOptimizer.Update", "optimizers.go:AdamOptimizer.Update", "network.go:HiddenLayer.Forward", "network.go:HiddenLayer.Backward", "matrix.go:Matrix.Dot"]}
{"id": "C126", "title": "Tied layers are trained jointly; one layer object used twice is not", "statement": "When several layer objects of a model share their weights and biases, Fit returns normally, the layers stay equal, and in every mini-batch all gradients come from the shared parameters and are then applied one after the other by the layers' own optimizers. In exact arithmetic one full-batch epoch of plain SGD moves every shared entry by the rate times the derivative of the training objective with respect to that entry in all tied layers together. Adding one ReLU layer object twice instead predicts the same but trains to other weights.", "quantifier": "all models with any partition of their layers into tied groups, all losses, optimizers, data sets, batch sizes and numbers of epochs; for the gradient all smooth points", "why_tests_cant": "infinitely many networks and ways of tying them, and real derivatives", "anchors": ["model.go:Model.Fit", "model.go:Model.Forward", "model.go:Model.Backward", "model.go:Model.AddLayer", "optimizers.go:SGDOptimizer.Update", "network.go:HiddenLayer.Forward", "network.go:HiddenLayer.Backward"]}
{"id": "C127", "title": "The rejection steps of the binomial sampler accept with the right probabilities, except for one value", "statement": "With 25 or more trials, Rand's Poisson method accepts a proposal k with probability proportional to binomial over Poisson probability, up to an explicit small error, for every k up to half the trials; the acceptance probability is below 1. The Cauchy method accepts with exactly 1.2 sq (1 + y^2) times the binomial probability of k. After a rejection it starts afresh. In float64 the Poisson method can never return N itself.", "quantifier": "all numbers of trials from 25, all probabilities up to 1/2, all random numbers", "why_tests_cant": "real-valued acceptance probabilities for infinitely many parameters; the missing value has probability 1e-50", "anchors": ["binomial.go:binomial.Rand"]}
{"id": "C128", "title": "Training a model with sigmoid layers, and what it does to their weights", "statement": "Fit on a model with sigmoid layers in any places returns normally and performs an explicitly given computation: a sigmoid layer's Backward overwrites the layer's input with dValues * s(X) * (1 - s(X)) and uses that for both input and gradient; the layer before computes its gradient from the overwritten output; later epochs and log lines see the overwritten training inputs. Without sigmoid layers this is the ordinary training. The training inputs survive if the first layer is not a sigmoid layer. With plain SGD the quadratic form of a sigmoid layer's weights never increases and their antisymmetric part never changes, whatever the targets; hence such a layer can rank two samples the wrong way round for every learning rate and every number of epochs.", "quantifier": "all models with square sigmoid layers, all data, targets, epochs, batch sizes, losses, optimizers, logging intervals", "why_tests_cant": "all trainings of all such models; the statement about weights holds after any number of epochs and at any rate", "anchors": ["network.go:SigmoidLayer.Backward", "activation.go:SigmoidPrime", "model.go:Model.Backward", "model.go:Model.Fit"]}
{"id": "C129", "title": "Models with a sigmoid layer that is not square cannot be trained", "statement": "Let e be the last sigmoid layer of a model with different numbers of inputs and outputs, anywhere in the model. If it has fewer outputs than inputs, Fit panics with an index out of range in the first batch. If it has more, and there is a layer before it, Fit returns that layer's dimension error for a 0x0 matrix. If it has more and is the first layer, plain gradient descent panics while updating.", "quantifier": "all models with such a layer, all other layers, data, targets, losses, batch sizes, epochs and logging settings; any optimizers in the first two cases", "why_tests_cant": "no model of this kind trains, whatever the other layers and the data; a test can only show single models", "anchors": ["network.go:SigmoidLayer.Backward", "activation.go:SigmoidPrime", "model.go:Model.Backward", "model.go:Model.Fit"]}
{"id": "C130", "title": "Without hidden layers, the inputs with one prediction form a convex set", "statement": "For a model whose layers before the last are linear: if two samples are put in the same class, so is every sample on the line segment between them (every class for a softmax or sigmoid last layer, every class but 0 for the other kinds); the same holds for each output of a model with binary predictions. Class 0 of a linear layer need not be convex, because RowMax starts from 0. One ReLU layer suffices to break convexity.", "quantifier": "all such models in exact arithmetic, all parameters, all pairs of samples and all points between them", "why_tests_cant": "a statement about all points of all segments and all parameters", "anchors": ["model.go:Model.Predict", "misc.go:RowMax", "misc.go:OutputBinaryValues"]}
{"id": "C131", "title": "Moving the targets and the last biases together does not change training", "statement": "For a model with a linear last layer and the squared or absolute error: adding a constant vector to all targets and to the last layer's biases changes nothing else about Fit. All weights, the other biases and the optimizers' state stay the same, the last biases differ by that vector, and so do the predictions. With a ReLU last layer this fails.", "quantifier": "all such models in exact arithmetic, all other layers, optimizers, batch sizes, numbers of epochs, data and vectors", "why_tests_cant": "relates two whole training runs for all data and all shifts", "anchors": ["model.go:Model.Fit", "model.go:Model.Predict", "loss.go:MeanSquaredLoss.Backward"]}
{"id": "C132", "title": "Networks without negative weights are monotone, also with float64 rounding", "statement": "If a network has ReLU, linear, dropout, sigmoid and leaky layers (slope not negative), raising features whose first-layer weights are not negative, with no negative weights in later layers, never lowers an output. This holds in exact arithmetic and for float64 with all its rounding, infinities included, as long as no NaN appears. A binary prediction never falls from 1 to 0. Strictness is lost to rounding: with positive weights a larger input can have the same output.", "quantifier": "all such networks of any depth and width, all float64 weights, biases and inputs", "why_tests_cant": "a statement about all pairs of inputs, with rounding and overflow", "anchors": ["matrix.go:Matrix.Dot", "network.go:HiddenLayer.Forward", "model.go:Model.Predict", "activation.go:RELU", "activation.go:LeakyRELU"]}
{"id": "C133", "title": "Training a linear layer is linear in the targets and the starting point", "statement": "Take three models of one linear layer each, trained by SGD (with or without momentum and decay) on the same samples with the squared error. If the third's targets, parameters and velocities are a times the first's plus b times the second's, then after any Fit its parameters, velocities and predictions are again a times the first's plus b times the second's. So doubled targets give doubled predictions, and noise in the targets adds its own response. With the absolute error, or with Adam, doubled targets do not give doubled parameters.", "quantifier": "all sizes, data sets, coefficients, batch sizes, epochs and SGD settings, in exact arithmetic", "why_tests_cant": "relates three training runs for all real data and all coefficients", "anchors": ["model.go:Model.Fit", "optimizers.go:SGDOptimizer.Update", "loss.go:MeanSquaredLoss.Backward", "loss.go:MeanAbsoluteLoss.Backward", "network.go:LinearLayer.Backward", "optimizers.go:AdamOptimizer.Update"]}
{"id": "C134", "title": "Overflow during training is permanent and not reported", "statement": "In float64, if all parameters are finite after a Fit, they were finite after every smaller number of epochs as well, and once all are NaN they stay NaN under more epochs. So looking at the final parameters tells whether training overflowed. Finite data and parameters do not prevent overflow: one linear unit with zero parameters, one sample (2, target 1) and learning rate 1/2 has finite parameters up to epoch 511 and NaN parameters from epoch 514 on, while Fit returns no error.", "quantifier": "all models, optimizers, data sets and pairs of epoch counts; the refutation for every number of epochs and any library functions", "why_tests_cant": "a statement about all numbers of epochs; a test of a few hundred epochs sees only finite numbers", "anchors": ["model.go:Model.Fit", "optimizers.go:SGDOptimizer.Update", "optimizers.go:AdamOptimizer.Update", "loss.go:MeanSquaredLoss.Backward"]}
{"id": "C135", "title": "Turning the sign of the targets and of the last layer turns only the predictions", "statement": "Take two networks of ReLU, leaky ReLU, dropout and linear layers ending in a linear layer, equal except that the weights, biases and velocities of the last layer have the opposite sign. Train both by SGD or Adam on the same samples with the same random numbers, one with the targets negated. Both Fits return, the earlier layers stay equal, and the last layers stay opposite. The predictions are opposite. In float64 this is exact: it holds up to the sign of zeros and the choice of NaN, with infinities included. It also holds in exact arithmetic. The loss is the squared or the absolute error. For Adam in float64, math.Pow(x, 2) is assumed not to depend on the sign of x. With a ReLU last layer the predictions need not be opposite (refuted).", "quantifier": "all such networks, data sets, momenta, decays, batch sizes and numbers of epochs, any library functions (for Adam: with an even math.Pow(x, 2))", "why_tests_cant": "a relation between two training runs of any length, in every rounding case", "anchors": ["model.go:Model.Fit", "model.go:Model.Predict", "loss.go:MeanSquaredLoss.Backward", "loss.go:MeanAbsoluteLoss.Backward", "optimizers.go:SGDOptimizer.Update", "optimizers.go:AdamOptimizer.Update", "network.go:LinearLayer.Backward", "network.go:HiddenLayer.Backward"]}
{"id": "C136", "title": "The sign convention of an input feature does not matter, exactly in float64", "statement": "Take a network of ReLU, leaky ReLU, dropout and linear layers. Turn the sign of some input features in all samples, and the sign of the first-layer weights (and velocities) of these features. Train both versions by SGD or Adam with the same targets and the same random numbers. Both Fits return and the networks still differ only in the signs of these weights. They predict the same numbers, classes or bits. In float64 this is exact: it holds up to the sign of zeros and the choice of NaN, with infinities included. It also holds in exact arithmetic. The loss is the squared or the absolute error. For Adam in float64, math.Pow(x, 2) is assumed not to depend on the sign of x. Two other changes of a feature do not have this property. One scales it by 2 and its weights by 1/2. The other adds 1 to it and corrects the bias. In both cases the networks agree before training but not after (refuted by examples).", "quantifier": "all sets of features, all such networks, data sets, momenta, decays, batch sizes and numbers of epochs", "why_tests_cant": "a relation between two training runs of any length, in every rounding case", "anchors": ["model.go:Model.Fit", "model.go:Model.Predict", "loss.go:MeanSquaredLoss.Backward", "loss.go:MeanAbsoluteLoss.Backward", "optimizers.go:SGDOptimizer.Update", "optimizers.go:AdamOptimizer.Update", "network.go:LinearLayer.Backward", "network.go:HiddenLayer.Backward", "network.go:LeakyLayer.Backward", "network.go:DropoutLayer.Backward"]}
