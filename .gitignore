.lia.cache
rocq/.nia.cache
__pycache__/
